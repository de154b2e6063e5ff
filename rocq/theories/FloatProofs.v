From Coq Require Import ZArith Reals Lra.
From Flocq Require Import Core IEEE754.Binary IEEE754.Bits.
From Verif Require Import Base VectorIoModel VectorIoProofs OrderToolSpec FloatModel.
Local Open Scope R_scope.

(** Rounding to nearest in the two formats *)
Notation rnd64 := (round radix2 (FLT_exp (-1074) 53) ZnearestE).
Notation rnd32 := (round radix2 (FLT_exp (-149) 24) ZnearestE).
Notation val64 := (B2R 53 1024).
Notation val32 := (B2R 24 128).
#[local] Instance prec53 : Prec_gt_0 53 := eq_refl.
#[local] Instance prec24 : Prec_gt_0 24 := eq_refl.

Lemma bpow_format emin prec e : (0 < prec)%Z -> (emin <= e)%Z -> generic_format radix2 (FLT_exp emin prec) (bpow radix2 e).
Proof. intros Hp He. apply generic_format_FLT_bpow; [exact Hp|exact He]. Qed.
Lemma rnd64_le x e : (-1074 <= e)%Z -> Rabs x <= bpow radix2 e -> Rabs (rnd64 x) <= bpow radix2 e.
Proof. intros He Hx. apply abs_round_le_generic; [apply FLT_exp_valid; done|apply valid_rnd_N|by apply bpow_format|done]. Qed.
Lemma rnd32_le x e : (-149 <= e)%Z -> Rabs x <= bpow radix2 e -> Rabs (rnd32 x) <= bpow radix2 e.
Proof. intros He Hx. apply abs_round_le_generic; [apply FLT_exp_valid; done|apply valid_rnd_N|by apply bpow_format|done]. Qed.
Lemma rnd64_mono x y : x <= y -> rnd64 x <= rnd64 y.
Proof. intros H. apply round_le; [apply FLT_exp_valid; done|apply valid_rnd_N|done]. Qed.
Lemma rnd32_mono x y : x <= y -> rnd32 x <= rnd32 y.
Proof. intros H. apply round_le; [apply FLT_exp_valid; done|apply valid_rnd_N|done]. Qed.
Lemma rnd64_int k : (Z.abs k <= 2 ^ 53)%Z -> rnd64 (IZR k) = IZR k.
Proof.
  intros Hk. apply round_generic; [apply valid_rnd_N|]. assert (IZR (2 ^ 53) = bpow radix2 53) as E by (apply (IZR_Zpower radix2 53); lia).
  destruct (Z.eq_dec (Z.abs k) (2 ^ 53)%Z) as [He|Hne].
  - assert (k = 2 ^ 53 \/ k = - 2 ^ 53)%Z as [-> | ->] by lia.
    + rewrite E. by apply bpow_format.
    + rewrite opp_IZR, E. apply generic_format_opp. by apply bpow_format.
  - replace (IZR k) with (F2R (Float radix2 k 0)) by (unfold F2R; cbn; ring).
    apply generic_format_FLT. exists (Float radix2 k 0); [done|cbn [Fnum]; change (radix2 ^ 53)%Z with (2 ^ 53)%Z; lia|cbn [Fexp]; lia].
Qed.
Lemma IZR_le_bpow k e : (0 <= e)%Z -> (Z.abs k <= 2 ^ e)%Z -> Rabs (IZR k) <= bpow radix2 e.
Proof. intros He Hk. rewrite <- abs_IZR. rewrite <- (IZR_Zpower radix2) by done. by apply IZR_le. Qed.

(** ** The steps of the conversion *)
Lemma to_double_spec k : (Z.abs k <= 2 ^ 63)%Z -> is_finite 53 1024 (to_double k) = true /\ val64 (to_double k) = rnd64 (IZR k) /\ Rabs (val64 (to_double k)) <= bpow radix2 63.
Proof.
  intros Hk. pose proof (rnd64_le (IZR k) 63 ltac:(lia) (IZR_le_bpow k 63 ltac:(lia) Hk)) as Hle.
  pose proof (binary_normalize_correct 53 1024 eq_refl eq_refl BinarySingleNaN.mode_NE k 0 false) as H. change (SpecFloat.fexp 53 1024) with (FLT_exp (-1074) 53) in H.
  replace (F2R (Float radix2 k 0)) with (IZR k) in H by (unfold F2R; cbn; ring). cbn [BinarySingleNaN.round_mode] in H.
  rewrite Rlt_bool_true in H by (apply (Rle_lt_trans _ _ _ Hle); by apply bpow_lt). destruct H as (H1 & H2 & _). unfold to_double. rewrite H1. done.
Qed.
Lemma to_float_spec x : is_finite 53 1024 x = true -> Rabs (val64 x) <= bpow radix2 100 -> is_finite 24 128 (to_float x) = true /\ val32 (to_float x) = rnd32 (val64 x).
Proof.
  intros Hf Hle. destruct x as [s|s|s pl Hpl|s m e He]; try done.
  - cbn [to_float B2R is_finite]. split; [done|]. symmetry. apply round_0, valid_rnd_N.
  - cbn [to_float]. cbn [B2R] in *. change (cond_Zopp s (Z.pos m)) with (Zaux.cond_Zopp s (Z.pos m)) in *.
    pose proof (rnd32_le _ 100 ltac:(lia) Hle) as Hle'.
    pose proof (binary_normalize_correct 24 128 eq_refl eq_refl BinarySingleNaN.mode_NE (Zaux.cond_Zopp s (Z.pos m)) e s) as H. change (SpecFloat.fexp 24 128) with (FLT_exp (-149) 24) in H. cbn [BinarySingleNaN.round_mode] in H.
    rewrite Rlt_bool_true in H by (apply (Rle_lt_trans _ _ _ Hle'); by apply bpow_lt). by destruct H as (H1 & H2 & _).
Qed.
Lemma million : val64 (to_double 1000000) = 1000000.
Proof. destruct (to_double_spec 1000000 ltac:(lia)) as (_ & -> & _). apply rnd64_int. lia. Qed.
Lemma quotient_spec k : (Z.abs k <= 2 ^ 63)%Z ->
  is_finite 53 1024 (b64_div BinarySingleNaN.mode_NE (to_double k) (to_double 1000000)) = true /\
  val64 (b64_div BinarySingleNaN.mode_NE (to_double k) (to_double 1000000)) = rnd64 (rnd64 (IZR k) / 1000000) /\
  Rabs (val64 (b64_div BinarySingleNaN.mode_NE (to_double k) (to_double 1000000))) <= bpow radix2 63.
Proof.
  intros Hk. destruct (to_double_spec k Hk) as (H1 & H2 & H3).
  assert (Rabs (rnd64 (IZR k) / 1000000) <= bpow radix2 63) as Hle.
  { rewrite <- H2. unfold Rdiv. rewrite Rabs_mult. rewrite (Rabs_right (/ 1000000)) by lra. pose proof (Rabs_pos (val64 (to_double k))). lra. }
  pose proof (rnd64_le _ 63 ltac:(lia) Hle) as Hle'. unfold b64_div.
  match goal with |- context [Bdiv _ _ ?h1 ?h2 ?nan _ _ _] => pose proof (Bdiv_correct 53 1024 h1 h2 nan BinarySingleNaN.mode_NE (to_double k) (to_double 1000000)) as H end.
  rewrite million in H. specialize (H ltac:(lra)). change (SpecFloat.fexp 53 1024) with (FLT_exp (-1074) 53) in H. cbn [BinarySingleNaN.round_mode] in H.
  rewrite H2 in H. rewrite Rlt_bool_true in H by (apply (Rle_lt_trans _ _ _ Hle'); by apply bpow_lt). destruct H as (E1 & E2 & _).
  rewrite E2, E1. done.
Qed.
Lemma micro_float_spec k : (Z.abs k <= 2 ^ 63)%Z -> is_finite 24 128 (micro_float k) = true /\ val32 (micro_float k) = rnd32 (rnd64 (rnd64 (IZR k) / 1000000)) /\ Rabs (val32 (micro_float k)) <= bpow radix2 63.
Proof.
  intros Hk. destruct (quotient_spec k Hk) as (H1 & H2 & H3). unfold micro_float. destruct (to_float_spec _ H1) as (H4 & H5).
  { apply (Rle_trans _ _ _ H3). by apply bpow_le. }
  split; [done|]. rewrite H5. split; [by rewrite H2|]. apply rnd32_le; [lia|done].
Qed.
Lemma micro_float_mono k k' : (Z.abs k <= 2 ^ 63)%Z -> (Z.abs k' <= 2 ^ 63)%Z -> (k <= k')%Z -> val32 (micro_float k) <= val32 (micro_float k').
Proof.
  intros Hk Hk' Hle. destruct (micro_float_spec k Hk) as (_ & -> & _), (micro_float_spec k' Hk') as (_ & -> & _).
  apply rnd32_mono, rnd64_mono. apply Rmult_le_compat_r; [lra|]. by apply rnd64_mono, IZR_le.
Qed.

(** ** The error *)
Lemma ulp_bound emin prec x : (0 < prec)%Z -> (emin <= 8 - prec)%Z -> Rabs x < bpow radix2 8 -> ulp radix2 (FLT_exp emin prec) x <= bpow radix2 (8 - prec).
Proof.
  intros Hp He Hx. assert (Prec_gt_0 prec) as Hp' by exact Hp. destruct (Req_dec x 0) as [-> |Hne].
  - rewrite ulp_FLT_small; [by apply bpow_le|done|]. rewrite Rabs_R0. apply bpow_gt_0.
  - rewrite ulp_neq_0 by done. apply bpow_le. unfold cexp, FLT_exp. pose proof (mag_le_bpow radix2 x 8 Hne Hx). lia.
Qed.
Lemma micro_float_error k : (Z.abs k <= 180000000)%Z -> Rabs (val32 (micro_float k) - IZR k / 1000000) <= 8 / 1000000.
Proof.
  intros Hk. destruct (micro_float_spec k ltac:(lia)) as (_ & -> & _). rewrite (rnd64_int k) by lia. set (x := IZR k / 1000000).
  assert (Rabs x <= 180) as Hx.
  { unfold x, Rdiv. rewrite Rabs_mult, (Rabs_right (/ 1000000)) by lra. rewrite <- abs_IZR. apply IZR_le in Hk. lra. }
  assert (bpow radix2 8 = 256) as B8 by reflexivity. assert (Rabs x < bpow radix2 8) as Hx8 by (rewrite B8; lra).
  pose proof (error_le_half_ulp radix2 (FLT_exp (-1074) 53) (fun x => negb (Z.even x)) x) as E1. pose proof (ulp_bound (-1074) 53 x ltac:(lia) ltac:(lia) Hx8) as U1.
  set (y := rnd64 x) in *. assert (bpow radix2 (8 - 53) <= / 1000000000000) as B1 by (change (bpow radix2 (8 - 53)) with (/ 35184372088832); lra).
  assert (Rabs (y - x) <= / 1000000000000) as E1' by lra.
  assert (Rabs y < bpow radix2 8) as Hy. { rewrite B8. replace y with ((y - x) + x) by ring. apply (Rle_lt_trans _ _ _ (Rabs_triang _ _)). lra. }
  pose proof (error_le_half_ulp radix2 (FLT_exp (-149) 24) (fun x => negb (Z.even x)) y) as E2. pose proof (ulp_bound (-149) 24 y ltac:(lia) ltac:(lia) Hy) as U2.
  assert (bpow radix2 (8 - 24) = / 65536) as B2 by reflexivity. rewrite B2 in U2.
  replace (rnd32 y - x) with ((rnd32 y - y) + (y - x)) by ring. apply (Rle_trans _ _ _ (Rabs_triang _ _)). lra.
Qed.

(** ** Comparisons and sums *)
Lemma float_less_spec x y : is_finite 24 128 x = true -> is_finite 24 128 y = true -> float_less x y = true <-> val32 x < val32 y.
Proof.
  intros Hx Hy. unfold float_less, b32_compare. rewrite (Bcompare_correct 24 128 x y Hx Hy). destruct (Rcompare_spec (val32 x) (val32 y)); split; try done; lra.
Qed.
Lemma float_weak_order : weak_order (fun x => is_finite 24 128 x = true) float_less.
Proof.
  split.
  - intros x Hx. destruct (float_less x x) eqn:E; [|done]. apply float_less_spec in E; [lra|done..].
  - intros x y z Hx Hy Hz E1%float_less_spec E2%float_less_spec; try done. apply float_less_spec; [done..|lra].
  - intros x y z Hx Hy Hz E%float_less_spec; try done. destruct (Rlt_dec (val32 x) (val32 y)); [left; by apply float_less_spec|right; apply float_less_spec; [done..|lra]].
Qed.
Lemma float_plus_finite x y : is_finite 24 128 x = true -> is_finite 24 128 y = true -> Rabs (val32 x) <= bpow radix2 63 -> Rabs (val32 y) <= bpow radix2 63 ->
  is_finite 24 128 (float_plus x y) = true /\ is_finite 24 128 (float_minus x y) = true.
Proof.
  intros Hx Hy Bx By. assert (bpow radix2 64 = 2 * bpow radix2 63) as B64 by (change 64%Z with (1 + 63)%Z; rewrite bpow_plus; reflexivity). split.
  - unfold float_plus, b32_plus. match goal with |- context [Bplus _ _ ?h1 ?h2 ?nan _ _ _] => pose proof (Bplus_correct 24 128 h1 h2 nan BinarySingleNaN.mode_NE x y Hx Hy) as H end.
    change (SpecFloat.fexp 24 128) with (FLT_exp (-149) 24) in H. cbn [BinarySingleNaN.round_mode] in H. rewrite Rlt_bool_true in H; [by destruct H as (_ & H & _)|].
    apply (Rle_lt_trans _ (bpow radix2 64)); [|by apply bpow_lt]. apply rnd32_le; [lia|]. apply (Rle_trans _ _ _ (Rabs_triang _ _)). lra.
  - unfold float_minus, b32_minus. match goal with |- context [Bminus _ _ ?h1 ?h2 ?nan _ _ _] => pose proof (Bminus_correct 24 128 h1 h2 nan BinarySingleNaN.mode_NE x y Hx Hy) as H end.
    change (SpecFloat.fexp 24 128) with (FLT_exp (-149) 24) in H. cbn [BinarySingleNaN.round_mode] in H. rewrite Rlt_bool_true in H; [by destruct H as (_ & H & _)|].
    apply (Rle_lt_trans _ (bpow radix2 64)); [|by apply bpow_lt]. apply rnd32_le; [lia|]. unfold Rminus. apply (Rle_trans _ _ _ (Rabs_triang _ _)). rewrite Rabs_Ropp. lra.
Qed.
Lemma micro_comparable lat lon : Forall (fun k => (Z.abs k <= 2 ^ 63)%Z) lat -> Forall (fun k => (Z.abs k <= 2 ^ 63)%Z) lon -> comparable float_plus float_minus float_less (micro_float <$> lat) (micro_float <$> lon).
Proof.
  intros H1 H2. exists (fun x => is_finite 24 128 x = true). split; [apply float_weak_order|]. intros i a b Ha Hb. apply list_lookup_fmap_Some in Ha as (k & Hk & ->). apply list_lookup_fmap_Some in Hb as (k' & Hk' & ->).
  destruct (micro_float_spec k) as (F1 & _ & B1); [by eapply (Forall_lookup_1 _ _ _ _ H1)|]. destruct (micro_float_spec k') as (F2 & _ & B2); [by eapply (Forall_lookup_1 _ _ _ _ H2)|].
  split; [done|]. split; [done|]. by apply float_plus_finite.
Qed.
(** ** Bytes *)
Lemma float_bytes_value x : length (float_bytes x) = 4%nat /\ bytes_float (float_bytes x) = x.
Proof.
  unfold float_bytes, bytes_float. split; [apply le_bytes_length|]. pose proof (bits_of_binary_float_range 23 8 eq_refl eq_refl x) as Hr. change (23 + 8 + 1)%Z with 32%Z in Hr.
  unfold bits_of_b32. rewrite le_word_bytes.
  - rewrite Z2N.id by lia. unfold b32_of_bits. apply (binary_float_of_bits_of_binary_float 23 8).
  - change (256 ^ N.of_nat 4)%N with 4294967296%N. change (2 ^ 32)%Z with 4294967296%Z in Hr. lia.
Qed.
