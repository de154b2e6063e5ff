(** C89: comparing files of floating point numbers, and large files.

    Full statement (false): for all files of numbers of any type, compare_vector prints whether the vectors are equal, and if not, how many elements are less,
    equal and greater, and the first index at which they differ. *)
From Verif Require Import Base ProtobufModel VectorIoModel VectorIoProofs VectorToolModel VectorToolSpec VectorToolProofs VectorToolCompareProofs Properties_VectorTool CompareFullModel CompareFullSpec CompareFullProofs.
Ltac Zify.zify_post_hook ::= idtac.

Lemma below_asym (number : N -> Prop) value x y : below number value x y -> ~ below number value y x.
Proof. intros (_ & _ & H) (_ & _ & H2). lia. Qed.
Lemma below_irr (number : N -> Prop) value x y : below number value x y \/ below number value y x -> ~ same number value x y.
Proof. intros [(_ & _ & H)|(_ & _ & H)] (_ & _ & H2); lia. Qed.
Lemma float_lt_asym x y : float_lt x y = true -> float_lt y x = false.
Proof. unfold float_lt. rewrite !andb_true_iff. intros [_ H%Z.ltb_lt]. apply andb_false_intro2. apply Z.ltb_ge. lia. Qed.
Lemma double_lt_asym x y : double_lt x y = true -> double_lt y x = false.
Proof. unfold double_lt. rewrite !andb_true_iff. intros [_ H%Z.ltb_lt]. apply andb_false_intro2. apply Z.ltb_ge. lia. Qed.

(** What is printed for all files with less than 2^32 floats, also if some of them are not numbers. *)
Theorem C89_floats_partial : forall fuel v1 v2, Forall (fun b => b < 2 ^ 32)%N v1 -> Forall (fun b => b < 2 ^ 32)%N v2 -> (N.of_nat (length v1) < 2 ^ 32)%N -> length v1 < fuel ->
  exists r, compare_float_files fuel (save_vector (le_bytes 4) v1) (save_vector (le_bytes 4) v2) = Ret (Some r) /\
    describes_any (below is_number float_value) (same is_number float_value) v1 v2 r.
Proof.
  intros fuel v1 v2 H1 H2 Hn Hf. unfold compare_float_files. rewrite !load_words_bounded by done. rewrite (compare_wide_small _ _ _ _ _ float_lt_asym Hn Hf).
  rewrite Forall_forall in H1, H2.
  destruct (compare_any_spec float_lt float_eq (below is_number float_value) (same is_number float_value) v1 v2) as (r & E & Hr).
  - intros x y Hx Hy. by apply float_order_any; [apply H1|apply H2].
  - intros x y Hx Hy. by apply float_order_any; [apply H2|apply H1].
  - intros x y Hx Hy. by apply float_order_any; [apply H1|apply H2].
  - apply below_asym.
  - apply below_irr.
  - exists r. by rewrite E.
Qed.
Print Assumptions C89_floats_partial.
(** The same for doubles *)
Theorem C89_doubles_partial : forall fuel v1 v2, Forall (fun b => b < 2 ^ 64)%N v1 -> Forall (fun b => b < 2 ^ 64)%N v2 -> (N.of_nat (length v1) < 2 ^ 32)%N -> length v1 < fuel ->
  exists r, compare_double_files fuel (save_vector (le_bytes 8) v1) (save_vector (le_bytes 8) v2) = Ret (Some r) /\
    describes_any (below is_double double_value) (same is_double double_value) v1 v2 r.
Proof.
  intros fuel v1 v2 H1 H2 Hn Hf. unfold compare_double_files. rewrite !load_words_bounded by done. rewrite (compare_wide_small _ _ _ _ _ double_lt_asym Hn Hf).
  rewrite Forall_forall in H1, H2.
  destruct (compare_any_spec double_lt double_eq (below is_double double_value) (same is_double double_value) v1 v2) as (r & E & Hr).
  - intros x y Hx Hy. by apply double_order; [apply H1|apply H2].
  - intros x y Hx Hy. by apply double_order; [apply H2|apply H1].
  - intros x y Hx Hy. by apply double_order; [apply H1|apply H2].
  - apply below_asym.
  - apply below_irr.
  - exists r. by rewrite E.
Qed.
Print Assumptions C89_doubles_partial.
(** If all doubles are numbers, the report is that of C63. *)
Theorem C89_double_numbers_partial : forall fuel v1 v2, Forall is_double v1 -> Forall is_double v2 -> (N.of_nat (length v1) < 2 ^ 32)%N -> length v1 < fuel ->
  exists r, compare_double_files fuel (save_vector (le_bytes 8) v1) (save_vector (le_bytes 8) v2) = Ret (Some r) /\
    describes Z.lt (double_value <$> v1) (double_value <$> v2) r.
Proof.
  intros fuel v1 v2 H1 H2 Hn Hf. unfold compare_double_files. rewrite !load_words_bounded; try done; [|eapply Forall_impl; [exact H2|by intros ? [? _]]|eapply Forall_impl; [exact H1|by intros ? [? _]]].
  rewrite (compare_wide_small _ _ _ _ _ double_lt_asym Hn Hf). rewrite Forall_forall in H1, H2.
  destruct (compare_values_spec double_lt double_eq double_value v1 v2) as (r & E & H).
  - intros x y Hx Hy. pose proof (H1 _ Hx) as Nx. pose proof (H2 _ Hy) as Ny. destruct (double_order x y (proj1 Nx) (proj1 Ny)) as [A B]. destruct (double_order y x (proj1 Ny) (proj1 Nx)) as [C _].
    unfold below, same in A, B, C. split_and!; apply eq_true_iff_eq; rewrite ?Z.ltb_lt, ?Z.eqb_eq; tauto.
  - exists r. by rewrite E.
Qed.
Print Assumptions C89_double_numbers_partial.
(** The vectors are said to be the same if and only if at each index the numbers are equal or one is not a number. *)
Theorem C89_double_same : forall fuel v1 v2 n, Forall (fun b => b < 2 ^ 64)%N v1 -> Forall (fun b => b < 2 ^ 64)%N v2 -> (N.of_nat (length v1) < 2 ^ 32)%N -> length v1 < fuel ->
  compare_double_files fuel (save_vector (le_bytes 8) v1) (save_vector (le_bytes 8) v2) = Ret (Some (Same n)) <->
  n = length v1 /\ length v2 = length v1 /\ forall i x y, v1 !! i = Some x -> v2 !! i = Some y -> is_double x -> is_double y -> double_value x = double_value y.
Proof.
  intros fuel v1 v2 n H1 H2 Hn Hf. destruct (C89_doubles_partial fuel v1 v2 H1 H2 Hn Hf) as (r & -> & Hr). split.
  - intros [= ->]. cbn [describes_any] in Hr. destruct Hr as (<- & E & H). split; [done|]. split; [done|]. intros i x y Ex Ey Nx Ny. destruct (H i) as [A B].
    destruct (Z.lt_trichotomy (double_value x) (double_value y)) as [L|[L|L]]; [|done|]; exfalso; [apply A|apply B]; by exists x, y.
  - intros (-> & El & H). do 2 f_equal. destruct r as [a b|a b|k|c1 c2 s d k f|a b c]; cbn [describes_any] in Hr; [lia|lia| | |done].
    + destruct Hr as (-> & _). done.
    + exfalso. destruct Hr as (_ & _ & Hc & Hc1 & Hc2 & _).
      assert (exists i x y, v1 !! i = Some x /\ v2 !! i = Some y /\ is_double x /\ is_double y /\ double_value x <> double_value y) as (i & x & y & Ex & Ey & Nx & Ny & D).
      { destruct c1 as [|c1].
        - destruct c2 as [|c2]; [lia|]. destruct (counts_some _ _ _ Hc2) as (i & _ & x & y & Ex & Ey & Ny & Nx & D). exists i, x, y. split_and!; [done..|lia].
        - destruct (counts_some _ _ _ Hc1) as (i & _ & x & y & Ex & Ey & Nx & Ny & D). exists i, x, y. split_and!; [done..|lia]. }
      by apply D, (H i).
Qed.
Print Assumptions C89_double_same.
(** Integers: with less than 2^32 elements the 32-bit numbers suffice, and C63 applies. *)
Theorem C89_ints : forall t fuel file1 file2 v1, load_vector (i_bytes t) (dec_int t) file1 = Ret v1 -> (N.of_nat (length v1) < 2 ^ 32)%N -> length v1 < fuel ->
  compare_int_files t fuel file1 file2 = compare_ints t file1 file2.
Proof.
  intros t fuel file1 file2 v1 E Hn Hf. unfold compare_int_files, compare_ints. rewrite E. destruct (load_vector (i_bytes t) (dec_int t) file2); [|done]. f_equal.
  apply compare_wide_small; [|done..]. intros x y H%Z.ltb_lt. apply Z.ltb_ge. lia.
Qed.
Print Assumptions C89_ints.
(** For equally many elements, 2^32 or more, of any type, the loop never ends: the index of 32 bits never reaches the size. *)
Theorem C89_large : forall {A} (lt eq : A -> A -> bool) fuel (v1 v2 : list A), length v1 = length v2 -> (2 ^ 32 <= N.of_nat (length v1))%N -> compare_wide lt eq fuel v1 v2 = None.
Proof.
  intros A lt eq fuel v1 v2 Hl Hn. unfold compare_wide. rewrite Hl, Nat.ltb_irrefl. rewrite wide_loop_never by done. done.
Qed.
Print Assumptions C89_large.
Theorem C89_large_refuted : exists v, Forall is_double v /\ forall fuel, compare_double_files fuel (save_vector (le_bytes 8) v) (save_vector (le_bytes 8) v) = Ret None.
Proof.
  assert (forall k : nat, exists v, length v = k /\ Forall is_double v) as Hk.
  { intros k. exists (replicate k 0%N). split; [apply replicate_length|]. apply Forall_replicate. split; vm_compute; [reflexivity|discriminate]. }
  destruct (Hk (N.to_nat (2 ^ 32))) as (v & Hl & H). clear Hk. exists v. split; [exact H|]. intros fuel. unfold compare_double_files.
  rewrite load_words_bounded; [|eapply Forall_impl; [exact H|by intros ? [? _]]|discriminate]. f_equal.
  apply C89_large; [reflexivity|]. rewrite Hl, N2Nat.id. apply N.le_refl.
Qed.
Print Assumptions C89_large_refuted.
(** Strings: what is printed for all vectors with less than 2^32 strings, and that the loop never ends for more. *)
Theorem C89_strings_partial : forall fuel v1 v2, Forall (fun s => 0%N ∉ s) v1 -> Forall (fun s => 0%N ∉ s) v2 -> (N.of_nat (length v1) < 2 ^ 32)%N -> length v1 < fuel ->
  exists r, compare_strings_wide fuel (load_strings (save_strings v1)) (load_strings (save_strings v2)) = Some r /\ describes (fun _ _ => False) v1 v2 r.
Proof.
  intros fuel v1 v2 H1 H2 Hn Hf. rewrite (load_save_strings _ H1), (load_save_strings _ H2). rewrite (compare_strings_wide_small v1 v2 fuel Hn Hf). apply compare_string_values_spec.
Qed.
Print Assumptions C89_strings_partial.
Theorem C89_large_strings : forall fuel v1 v2, length v1 = length v2 -> (2 ^ 32 <= N.of_nat (length v1))%N -> compare_strings_wide fuel v1 v2 = None.
Proof. intros fuel v1 v2 Hl Hn. unfold compare_strings_wide. rewrite Hl, Nat.ltb_irrefl. rewrite wide_strings_never by done. done. Qed.
Print Assumptions C89_large_strings.
Example C89_strings_ex : let v1 := [[97]; [98]; []]%N in let v2 := [[97]; [99]; []]%N in
  compare_strings_wide 4 (load_strings (save_strings v1)) (load_strings (save_strings v2)) = Some (DifferStrings 2 1 3) /\
  compare_strings_wide 4 (load_strings (save_strings v1)) (load_strings (save_strings v1)) = Some (Same 3) /\ compare_strings_wide 3 v1 v2 = None.
Proof. split_and!; vm_compute; reflexivity. Qed.
(** The first element that differs may be among those that are said to be the same: here it is at index 0, but only index 1 is counted. 9221120237041090560 is a quiet NaN; the others are
    1.0 and 2.0. *)
Theorem C89_nan_refuted : exists v1 v2 c1 c2 s d n i,
  compare_double_files 10 (save_vector (le_bytes 8) v1) (save_vector (le_bytes 8) v2) = Ret (Some (Differ c1 c2 s d n (Some i))) /\
  d = 1 /\ (exists j x y, i < j /\ v1 !! j = Some x /\ v2 !! j = Some y /\ is_double x /\ is_double y /\ (double_value x < double_value y)%Z).
Proof.
  exists [9221120237041090560; 4607182418800017408]%N, [4607182418800017408; 4611686018427387904]%N, 1, 0, 1, 1, 2, 0. split; [vm_compute; reflexivity|]. split; [done|].
  exists 1, 4607182418800017408%N, 4611686018427387904%N. split_and!; [lia|done|done|split; vm_compute; [reflexivity|discriminate]|split; vm_compute; [reflexivity|discriminate]|vm_compute; reflexivity].
Qed.
Print Assumptions C89_nan_refuted.

(** Non-trivial vectors: 1.0, -2.5, -0.0 and infinity compared to 1.0, -2.0, 0.0 and NaN. *)
Definition C89_v1 : list N := [4607182418800017408; 13836183955189006336; 9223372036854775808; 9218868437227405312]%N.
Definition C89_v2 : list N := [4607182418800017408; 13835058055282163712; 0; 9221120237041090560]%N.
Example C89_ex : Forall (fun b => b < 2 ^ 64)%N C89_v1 /\ Forall (fun b => b < 2 ^ 64)%N C89_v2 /\ (N.of_nat (length C89_v1) < 2 ^ 32)%N /\
  compare_double_files 5 (save_vector (le_bytes 8) C89_v1) (save_vector (le_bytes 8) C89_v2) = Ret (Some (Differ 1 0 3 1 4 (Some 1))) /\
  map double_value (take 3 C89_v1) = [2 ^ 1074; -5 * 2 ^ 1073; 0]%Z /\ Forall is_double C89_v1 /\ ~ Forall is_double C89_v2 /\
  compare_double_files 5 (save_vector (le_bytes 8) C89_v1) (save_vector (le_bytes 8) C89_v1) = Ret (Some (Same 4)) /\
  compare_float_files 3 (save_vector (le_bytes 4) [1065353216; 3223322624]%N) (save_vector (le_bytes 4) [1073741824; 3221225472]%N) = Ret (Some (Differ 2 0 0 2 2 (Some 0))) /\
  compare_int_files int16 3 (save_vector (enc_int int16) [1; 5]%Z) (save_vector (enc_int int16) [1; 4]%Z) = Ret (Some (Differ 0 1 1 1 2 (Some 1))).
Proof.
  split; [unfold C89_v1; repeat (apply Forall_cons; split; [vm_compute; reflexivity|]); apply Forall_nil; exact I|].
  split; [unfold C89_v2; repeat (apply Forall_cons; split; [vm_compute; reflexivity|]); apply Forall_nil; exact I|].
  split; [vm_compute; reflexivity|]. split; [vm_compute; reflexivity|]. split; [vm_compute; reflexivity|].
  split; [unfold C89_v1; repeat (apply Forall_cons; split; [split; vm_compute; [reflexivity|discriminate]|]); apply Forall_nil; exact I|].
  split; [intros H; destruct (Forall_lookup_1 _ _ 3 9221120237041090560%N H eq_refl) as [_ H2]; vm_compute in H2; by apply H2|].
  split; [vm_compute; reflexivity|]. split; [vm_compute; reflexivity|]. vm_compute; reflexivity.
Qed.
