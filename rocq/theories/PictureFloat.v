(** Proofs about PictureModel: coordinates. *)
From Coq Require Import ZArith Reals Lra.
From Flocq Require Import Core Relative Plus_error IEEE754.Binary IEEE754.Bits.
From Verif Require Import Base FloatModel FloatProofs PictureModel PictureSpec.
Ltac Zify.zify_post_hook ::= idtac.
Local Open Scope R_scope.
#[local] Instance prec_24 : Prec_gt_0 24 := eq_refl.
Notation fin := (is_finite 24 128).
Notation fmt := (generic_format radix2 (FLT_exp (-149) 24)).
Lemma val_format x : fmt (val32 x).
Proof. apply (generic_format_B2R 24 128). Qed.
Lemma minus_val x y : fin x = true -> fin y = true -> Rabs (val32 x) <= bpow radix2 63 -> Rabs (val32 y) <= bpow radix2 63 ->
  fin (float_minus x y) = true /\ val32 (float_minus x y) = rnd32 (val32 x - val32 y).
Proof.
  intros Hx Hy Bx By. assert (bpow radix2 64 = 2 * bpow radix2 63) as B64 by (change 64%Z with (1 + 63)%Z; rewrite bpow_plus; reflexivity).
  unfold float_minus, b32_minus. match goal with |- context [Bminus _ _ ?h1 ?h2 ?nan _ _ _] => pose proof (Bminus_correct 24 128 h1 h2 nan BinarySingleNaN.mode_NE x y Hx Hy) as H end.
  change (SpecFloat.fexp 24 128) with (FLT_exp (-149) 24) in H. cbn [BinarySingleNaN.round_mode] in H. rewrite Rlt_bool_true in H; [by destruct H as (? & ? & _)|].
  apply (Rle_lt_trans _ (bpow radix2 64)); [|by apply bpow_lt]. apply rnd32_le; [lia|]. unfold Rminus. apply (Rle_trans _ _ _ (Rabs_triang _ _)). rewrite Rabs_Ropp. lra.
Qed.
Lemma val_300 : fin float_300 = true /\ val32 float_300 = 300.
Proof.
  split; [reflexivity|]. rewrite <- (FF2R_B2FF 24 128). assert (B2FF 24 128 float_300 = F754_finite false 9830400 (-15)) as -> by (vm_compute; reflexivity).
  unfold FF2R, F2R. cbn [Fnum Fexp Zaux.cond_Zopp]. change (bpow radix2 (-15)) with (/ 32768). lra.
Qed.
Lemma mult_val d : fin d = true -> Rabs (val32 d) <= bpow radix2 64 ->
  fin (b32_mult BinarySingleNaN.mode_NE d float_300) = true /\ val32 (b32_mult BinarySingleNaN.mode_NE d float_300) = rnd32 (val32 d * 300).
Proof.
  intros Hd Bd. destruct val_300 as [F3 V3]. unfold b32_mult. match goal with |- context [Bmult _ _ ?h1 ?h2 ?nan _ _ _] => pose proof (Bmult_correct 24 128 h1 h2 nan BinarySingleNaN.mode_NE d float_300) as H end.
  change (SpecFloat.fexp 24 128) with (FLT_exp (-149) 24) in H. cbn [BinarySingleNaN.round_mode] in H. rewrite V3, Hd, F3 in H. rewrite Rlt_bool_true in H; [by destruct H as (? & ? & _)|].
  apply (Rle_lt_trans _ (bpow radix2 73)); [|by apply bpow_lt]. apply rnd32_le; [lia|]. rewrite Rabs_mult, (Rabs_right 300) by lra.
  assert (bpow radix2 73 = 512 * bpow radix2 64) as -> by (change 73%Z with (9 + 64)%Z; rewrite bpow_plus; reflexivity). pose proof (bpow_gt_0 radix2 64). lra.
Qed.
Lemma div_val p q : fin p = true -> val32 q <> 0 -> Rabs (val32 p / val32 q) <= bpow radix2 10 ->
  fin (b32_div BinarySingleNaN.mode_NE p q) = true /\ val32 (b32_div BinarySingleNaN.mode_NE p q) = rnd32 (val32 p / val32 q).
Proof.
  intros Hp Hq B. unfold b32_div. match goal with |- context [Bdiv _ _ ?h1 ?h2 ?nan _ _ _] => pose proof (Bdiv_correct 24 128 h1 h2 nan BinarySingleNaN.mode_NE p q Hq) as H end.
  change (SpecFloat.fexp 24 128) with (FLT_exp (-149) 24) in H. cbn [BinarySingleNaN.round_mode] in H. rewrite Rlt_bool_true in H; [by destruct H as (? & -> & _)|].
  apply (Rle_lt_trans _ (bpow radix2 10)); [|by apply bpow_lt]. by apply rnd32_le.
Qed.

(** ** Rounding errors *)
Definition u : R := / 16777216.
Lemma u_bound eps : Rabs eps <= u_ro radix2 24 / (1 + u_ro radix2 24) -> Rabs eps <= u.
Proof.
  intros H. apply (Rle_trans _ _ _ H). assert (u_ro radix2 24 = u) as ->. { unfold u_ro, u. assert (bpow radix2 (- (24) + 1) = / 8388608) as -> by reflexivity. lra. }
  assert (0 < u) by (unfold u; lra). apply Rmult_le_reg_r with (1 + u); [lra|]. unfold Rdiv. rewrite Rmult_assoc, Rinv_l by lra. pose proof (Rmult_lt_0_compat u u ltac:(lra) ltac:(lra)). lra.
Qed.
Lemma minus_error a b : fmt a -> fmt b -> exists e, Rabs e <= u /\ rnd32 (a - b) = (a - b) * (1 + e).
Proof.
  intros Ha Hb. destruct (FLT_plus_error_N_ex radix2 (-149) 24 (fun x => negb (Z.even x)) a (- b) Ha (generic_format_opp _ _ _ Hb)) as (e & He & H).
  exists e. split; [by apply u_bound|]. exact H.
Qed.
Lemma times_300_error d : fmt d -> exists e, Rabs e <= u /\ rnd32 (d * 300) = (d * 300) * (1 + e).
Proof.
  intros Hd. destruct (Rle_dec (bpow radix2 (-126)) (Rabs (d * 300))) as [H|H].
  - destruct (relative_error_N_FLT_ex radix2 (-149) 24 eq_refl (fun x => negb (Z.even x)) (d * 300) H) as (e & He & E). exists e. split; [|exact E].
    apply (Rle_trans _ _ _ He). unfold u. assert (bpow radix2 (- (24) + 1) = / 8388608) as -> by reflexivity. lra.
  - exists 0. split; [rewrite Rabs_R0; unfold u; lra|]. rewrite Rplus_0_r, Rmult_1_r. apply round_generic; [apply _|].
    apply generic_format_FLT_FIX; [exact eq_refl| |].
    + apply Rnot_le_lt in H. apply Rlt_le. apply (Rlt_le_trans _ _ _ H). by apply bpow_le.
    + apply (generic_format_FIX_FLT radix2 (-149) 24), FIX_format_generic in Hd as [f Hf He]. apply generic_format_FIX. exists (Float radix2 (Fnum f * 300) (-149)); [|done].
      rewrite Hf. unfold F2R. cbn [Fnum Fexp]. rewrite He, mult_IZR. ring.
Qed.
Lemma round_error x : exists e eta, Rabs e <= u /\ Rabs eta <= / 1000000000 /\ rnd32 x = x * (1 + e) + eta.
Proof.
  destruct (relative_error_N_FLT'_ex radix2 (-149) 24 eq_refl (fun x => negb (Z.even x)) x) as (e & eta & He & Ht & _ & E). exists e, eta. split; [by apply u_bound|]. split; [|exact E].
  apply (Rle_trans _ _ _ Ht). assert (bpow radix2 (-149) <= bpow radix2 (-30)) by (by apply bpow_le). assert (bpow radix2 (-30) = / 1073741824) as E2 by reflexivity. rewrite E2 in H. lra.
Qed.
Lemma rnd32_0 : rnd32 0 = 0.
Proof. apply round_0. apply _. Qed.

(** ** A coordinate *)
Section coordinate.
Context (a b : binary32) (Fa : fin a = true) (Fb : fin b = true) (Ba : Rabs (val32 a) <= bpow radix2 63) (Bb : Rabs (val32 b) <= bpow radix2 63) (Hab : val32 a < val32 b).
Lemma width_pos : 0 < rnd32 (val32 b - val32 a).
Proof.
  pose proof (rnd32_mono 0 (val32 b - val32 a) ltac:(lra)) as H. rewrite rnd32_0 in H.
  assert (rnd32 (val32 b + - val32 a) <> 0) as Hn. { apply round_plus_neq_0; [apply _|apply _|apply _|apply val_format|apply generic_format_opp, val_format|lra]. }
  change (val32 b + - val32 a) with (val32 b - val32 a) in Hn. lra.
Qed.
Lemma quotient_bounds d : fmt d -> 0 <= d <= rnd32 (val32 b - val32 a) -> 0 <= rnd32 (d * 300) / rnd32 (val32 b - val32 a) <= 300 * (1 + u).
Proof.
  intros Hf [H0 H1]. pose proof width_pos as Hw. set (D := rnd32 (val32 b - val32 a)) in *. destruct (times_300_error d Hf) as (e & He & ->).
  assert (- u <= e <= u) as He' by (by apply Rabs_le_inv). assert (0 < u < 1) by (unfold u; lra). split.
  - apply Rmult_le_pos; [|left; by apply Rinv_0_lt_compat]. apply Rmult_le_pos; lra.
  - apply Rmult_le_reg_r with D; [done|]. unfold Rdiv. rewrite Rmult_assoc, Rinv_l by lra. rewrite Rmult_1_r.
    apply (Rle_trans _ ((D * 300) * (1 + u))); [|lra]. apply Rmult_le_compat; lra.
Qed.
Lemma scale_val x : fin x = true -> Rabs (val32 x) <= bpow radix2 63 -> val32 a <= val32 x <= val32 b ->
  fin (scale_coordinate a b x) = true /\ val32 (scale_coordinate a b x) = rnd32 (rnd32 (rnd32 (val32 x - val32 a) * 300) / rnd32 (val32 b - val32 a)) /\
  0 <= rnd32 (val32 x - val32 a) <= rnd32 (val32 b - val32 a).
Proof.
  intros Fx Bx Hx. destruct (minus_val x a Fx Fa Bx Ba) as [F1 V1]. destruct (minus_val b a Fb Fa Bb Ba) as [F2 V2]. pose proof width_pos as Hw.
  assert (0 <= rnd32 (val32 x - val32 a) <= rnd32 (val32 b - val32 a)) as Hd. { split; [rewrite <- rnd32_0|]; apply rnd32_mono; lra. }
  assert (Rabs (val32 (float_minus x a)) <= bpow radix2 64) as B1.
  { rewrite V1. apply rnd32_le; [lia|]. assert (bpow radix2 64 = 2 * bpow radix2 63) as B64 by (change 64%Z with (1 + 63)%Z; rewrite bpow_plus; reflexivity).
    unfold Rminus. apply (Rle_trans _ _ _ (Rabs_triang _ _)). rewrite Rabs_Ropp. lra. }
  destruct (mult_val _ F1 B1) as [F3 V3]. rewrite V1 in V3.
  assert (fmt (rnd32 (val32 x - val32 a))) as Hf by (rewrite <- V1; apply val_format). pose proof (quotient_bounds _ Hf Hd) as Hq.
  unfold scale_coordinate. destruct (div_val (b32_mult BinarySingleNaN.mode_NE (float_minus x a) float_300) (float_minus b a)) as [F4 V4]; [done|rewrite V2; lra| |].
  - rewrite V3, V2. rewrite Rabs_right by lra. change (bpow radix2 10) with 1024. unfold u in Hq. lra.
  - split; [done|]. split; [|done]. by rewrite V4, V3, V2.
Qed.
Lemma scale_bounds x : fin x = true -> Rabs (val32 x) <= bpow radix2 63 -> val32 a <= val32 x <= val32 b ->
  0 <= val32 (scale_coordinate a b x) <= 300 + / 32768.
Proof.
  intros Fx Bx Hx. destruct (scale_val x Fx Bx Hx) as (_ & -> & Hd). destruct (minus_val x a Fx Fa Bx Ba) as [_ V1].
  assert (fmt (rnd32 (val32 x - val32 a))) as Hf by (rewrite <- V1; apply val_format). pose proof (quotient_bounds _ Hf Hd) as Hq.
  split; [rewrite <- rnd32_0 at 1; apply rnd32_mono; lra|].
  assert (rnd32 (300 + / 32768) = 300 + / 32768) as <-; [|apply rnd32_mono; unfold u in Hq; lra].
  apply round_generic; [apply _|]. assert (300 + / 32768 = F2R (Float radix2 9830401 (-15))) as ->. { unfold F2R. cbn [Fnum Fexp]. change (bpow radix2 (-15)) with (/ 32768). lra. }
  apply generic_format_FLT. exists (Float radix2 9830401 (-15)); [done|cbn; lia|cbn; lia].
Qed.
Lemma scale_mono x y : fin x = true -> fin y = true -> Rabs (val32 x) <= bpow radix2 63 -> Rabs (val32 y) <= bpow radix2 63 -> val32 a <= val32 x -> val32 x <= val32 y -> val32 y <= val32 b ->
  val32 (scale_coordinate a b x) <= val32 (scale_coordinate a b y).
Proof.
  intros Fx Fy Bx By H1 H2 H3. destruct (scale_val x Fx Bx ltac:(lra)) as (_ & -> & _). destruct (scale_val y Fy By ltac:(lra)) as (_ & -> & _).
  pose proof width_pos. apply rnd32_mono. apply Rmult_le_compat_r; [left; by apply Rinv_0_lt_compat|]. apply rnd32_mono. apply Rmult_le_compat_r; [lra|]. apply rnd32_mono. lra.
Qed.
Lemma scale_error x : fin x = true -> Rabs (val32 x) <= bpow radix2 63 -> val32 a <= val32 x <= val32 b ->
  Rabs (val32 (scale_coordinate a b x) - 300 * (val32 x - val32 a) / (val32 b - val32 a)) <= / 8192.
Proof.
  intros Fx Bx Hx. destruct (scale_val x Fx Bx Hx) as (_ & -> & _). destruct (minus_val x a Fx Fa Bx Ba) as [_ V1].
  assert (fmt (rnd32 (val32 x - val32 a))) as Hf by (rewrite <- V1; apply val_format). destruct (times_300_error _ Hf) as (e3 & H3 & ->).
  destruct (minus_error (val32 x) (val32 a) (val_format _) (val_format _)) as (e1 & H1 & ->). destruct (minus_error (val32 b) (val32 a) (val_format _) (val_format _)) as (e2 & H2 & ->).
  apply Rabs_le_inv in H1, H2, H3. set (W := val32 b - val32 a) in *. set (t := val32 x - val32 a) in *. assert (0 < W) as HW by (unfold W; lra). assert (0 <= t <= W) as Ht by (unfold t, W; lra).
  assert (0 < u < / 10000000) as Hu by (unfold u; lra).
  set (r := t / W). assert (0 <= r <= 1) as Hr.
  { unfold r, Rdiv. split; [apply Rmult_le_pos; [lra|left; by apply Rinv_0_lt_compat]|]. apply Rmult_le_reg_r with W; [done|]. rewrite Rmult_assoc, Rinv_l by lra. lra. }
  set (k := (1 + e1) * (1 + e3) / (1 + e2)). assert (t * (1 + e1) * 300 * (1 + e3) / (W * (1 + e2)) = 300 * r * k) as -> by (unfold r, k; field; lra).
  assert (300 * t / W = 300 * r) as -> by (unfold r; field; lra).
  assert (1 - 4 * u <= k <= 1 + 4 * u) as Hk.
  { assert (k * (1 + e2) = (1 + e1) * (1 + e3)) as Ek by (unfold k; field; lra).
    assert ((1 - u) * (1 - u) <= (1 + e1) * (1 + e3) <= (1 + u) * (1 + u)) as Hp by (split; apply Rmult_le_compat; lra).
    split; apply Rmult_le_reg_r with (1 + e2); try lra; rewrite Ek.
    - apply (Rle_trans _ ((1 - 4 * u) * (1 + u))); [apply Rmult_le_compat_l; lra|]. nra.
    - apply (Rle_trans _ ((1 + 4 * u) * (1 - u))); [nra|]. apply Rmult_le_compat_l; lra. }
  destruct (round_error (300 * r * k)) as (e4 & eta & H4 & H5 & ->). apply Rabs_le_inv in H4, H5.
  assert (1 - 6 * u <= k * (1 + e4) <= 1 + 6 * u) as Hk4.
  { split; [apply (Rle_trans _ ((1 - 4 * u) * (1 - u))); [nra|apply Rmult_le_compat; lra]|apply (Rle_trans _ ((1 + 4 * u) * (1 + u))); [apply Rmult_le_compat; lra|nra]]. }
  apply Rabs_le. replace (300 * r * k * (1 + e4) + eta - 300 * r) with (300 * r * (k * (1 + e4) - 1) + eta) by ring.
  assert (- (300 * (6 * u)) <= 300 * r * (k * (1 + e4) - 1) <= 300 * (6 * u)) as Hfin.
  { set (z := k * (1 + e4) - 1) in *. assert (- (6 * u) <= z <= 6 * u) as Hz by (unfold z; lra). split; nra. }
  unfold u in Hfin. lra.
Qed.
End coordinate.
