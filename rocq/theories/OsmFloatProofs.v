(** Proofs about OsmFloatModel: bounds for the rounding errors of coordinates. *)
From Coq Require Import ZArith Reals Lra.
From Flocq Require Import Core Relative IEEE754.Binary IEEE754.Bits.
From Verif Require Import Base FloatModel FloatProofs OsmFloatSpec OsmFloatModel.
Local Open Scope R_scope.

#[local] Instance prec53 : Prec_gt_0 53 := eq_refl.
#[local] Instance prec24 : Prec_gt_0 24 := eq_refl.
Notation fin64 := (is_finite 53 1024).

Definition u : R := / 9007199254740992.
Lemma u_bpow : u = / 2 * bpow radix2 (- 53 + 1).
Proof. unfold u. change (bpow radix2 (- 53 + 1)) with (/ 4503599627370496). lra. Qed.
Lemma u_pos : 0 < u.
Proof. unfold u. lra. Qed.

(** ** The operations *)
Lemma mult_spec x y : fin64 x = true -> fin64 y = true -> Rabs (val64 x * val64 y) <= bpow radix2 200 ->
  fin64 (b64_mult BinarySingleNaN.mode_NE x y) = true /\ val64 (b64_mult BinarySingleNaN.mode_NE x y) = rnd64 (val64 x * val64 y).
Proof.
  intros Hx Hy Hb. pose proof (rnd64_le _ 200 ltac:(lia) Hb) as Hle. unfold b64_mult.
  match goal with |- context [Bmult _ _ ?h1 ?h2 ?nan _ _ _] => pose proof (Bmult_correct 53 1024 h1 h2 nan BinarySingleNaN.mode_NE x y) as H end.
  change (SpecFloat.fexp 53 1024) with (FLT_exp (-1074) 53) in H. cbn [BinarySingleNaN.round_mode] in H.
  rewrite Rlt_bool_true in H by (apply (Rle_lt_trans _ _ _ Hle); by apply bpow_lt). destruct H as (E1 & E2 & _).
  rewrite E2, E1, Hx, Hy. done.
Qed.
Lemma plus_spec x y : fin64 x = true -> fin64 y = true -> Rabs (val64 x + val64 y) <= bpow radix2 200 ->
  fin64 (b64_plus BinarySingleNaN.mode_NE x y) = true /\ val64 (b64_plus BinarySingleNaN.mode_NE x y) = rnd64 (val64 x + val64 y).
Proof.
  intros Hx Hy Hb. pose proof (rnd64_le _ 200 ltac:(lia) Hb) as Hle. unfold b64_plus.
  match goal with |- context [Bplus _ _ ?h1 ?h2 ?nan _ _ _] => pose proof (Bplus_correct 53 1024 h1 h2 nan BinarySingleNaN.mode_NE x y Hx Hy) as H end.
  change (SpecFloat.fexp 53 1024) with (FLT_exp (-1074) 53) in H. cbn [BinarySingleNaN.round_mode] in H.
  rewrite Rlt_bool_true in H by (apply (Rle_lt_trans _ _ _ Hle); by apply bpow_lt). destruct H as (E1 & E2 & _).
  rewrite E2, E1. done.
Qed.
Lemma int_spec k : (Z.abs k <= 2 ^ 53)%Z -> fin64 (to_double k) = true /\ val64 (to_double k) = IZR k.
Proof.
  intros Hk. destruct (to_double_spec k) as (H1 & H2 & _); [lia|]. split; [done|]. rewrite H2. by apply rnd64_int.
Qed.
Lemma big x : Rabs x <= 1000 -> Rabs x <= bpow radix2 200.
Proof. intros H. apply (Rle_trans _ _ _ H). apply (Rle_trans _ (bpow radix2 10)); [change (bpow radix2 10) with 1024; lra|by apply bpow_le]. Qed.

(** Rounding changes a number by a factor close to 1. *)
Lemma rel x : x = 0 \/ / 1000000000000 <= Rabs x -> exists e, Rabs e <= u /\ rnd64 x = x * (1 + e).
Proof.
  intros [-> |Hx].
  - exists 0. rewrite Rabs_R0. split; [pose proof u_pos; lra|]. rewrite round_0 by apply valid_rnd_N. ring.
  - rewrite u_bpow. apply (relative_error_N_FLT_ex radix2 (-1074) 53 eq_refl).
    apply (Rle_trans _ (bpow radix2 (-40))); [by apply bpow_le|]. change (bpow radix2 (-40)) with (/ 1099511627776). lra.
Qed.
Lemma factor a A e : Rabs (a - 1) <= A -> Rabs e <= u -> Rabs (a * (1 + e) - 1) <= A + u + A * u.
Proof.
  intros Ha He. replace (a * (1 + e) - 1) with ((a - 1) + e + (a - 1) * e) by ring.
  apply (Rle_trans _ _ _ (Rabs_triang _ _)). apply Rplus_le_compat.
  - apply (Rle_trans _ _ _ (Rabs_triang _ _)). lra.
  - rewrite Rabs_mult. apply Rmult_le_compat; [apply Rabs_pos|apply Rabs_pos|done|done].
Qed.

Lemma nano_spec : fin64 nano = true /\ exists a, Rabs (a - 1) <= u /\ val64 nano = / 1000000000 * a.
Proof.
  destruct (int_spec 1 ltac:(lia)) as (F1 & V1). destruct (int_spec 1000000000 ltac:(lia)) as (F2 & V2).
  assert (Rabs (1 / 1000000000) = / 1000000000) as Ea by (rewrite Rabs_right; lra).
  assert (Rabs (1 / 1000000000) <= bpow radix2 200) as Hb by (apply big; rewrite Ea; lra).
  pose proof (rnd64_le _ 200 ltac:(lia) Hb) as Hle. unfold nano, b64_div.
  match goal with |- context [Bdiv _ _ ?h1 ?h2 ?nan _ _ _] => pose proof (Bdiv_correct 53 1024 h1 h2 nan BinarySingleNaN.mode_NE (to_double 1) (to_double 1000000000)) as H end.
  rewrite V1, V2 in H. specialize (H ltac:(lra)). change (SpecFloat.fexp 53 1024) with (FLT_exp (-1074) 53) in H. cbn [BinarySingleNaN.round_mode] in H.
  rewrite Rlt_bool_true in H by (apply (Rle_lt_trans _ _ _ Hle); by apply bpow_lt). destruct H as (E1 & E2 & _).
  rewrite E2, E1. split; [done|]. destruct (rel (1 / 1000000000)) as (e & He & Er); [right; rewrite Ea; lra|].
  exists (1 + e). split; [by replace (1 + e - 1) with e by ring|]. rewrite Er. unfold Rdiv. ring.
Qed.

Section block.
Context (G : Z) (HG : (1 <= G <= 180000000000)%Z).

Lemma G_real : 1 <= IZR G <= 180000000000.
Proof. split; apply IZR_le; lia. Qed.

Lemma gran_spec : fin64 (block_granularity G) = true /\
  exists a, Rabs (a - 1) <= 2 * u + u * u /\ val64 (block_granularity G) = / 1000000000 * IZR G * a.
Proof.
  destruct nano_spec as (F1 & a & Ha & V1). destruct (int_spec G ltac:(lia)) as (F2 & V2). pose proof G_real as HGr.
  assert (Rabs a <= 2 /\ / 2 <= Rabs a) as [Ha2 Ha3].
  { unfold u in Ha. apply Rabs_le_inv in Ha. rewrite Rabs_right by lra. lra. }
  assert (val64 nano * val64 (to_double G) = / 1000000000 * IZR G * a) as E by (rewrite V1, V2; ring).
  assert (Rabs (/ 1000000000 * IZR G * a) = / 1000000000 * IZR G * Rabs a) as Er.
  { rewrite Rabs_mult. f_equal. apply Rabs_right. lra. }
  destruct (mult_spec nano (to_double G) F1 F2) as (F3 & V3).
  { rewrite E. apply big. rewrite Er.
    apply (Rle_trans _ (180 * Rabs a)); [apply Rmult_le_compat_r; [apply Rabs_pos|lra]|lra]. }
  split; [done|]. unfold block_granularity. rewrite V3, E.
  destruct (rel (/ 1000000000 * IZR G * a)) as (e & He & Ee).
  { right. rewrite Er. apply (Rle_trans _ (/ 1000000000 * Rabs a)); [lra|]. apply Rmult_le_compat_r; [apply Rabs_pos|lra]. }
  exists (a * (1 + e)). split; [|rewrite Ee; ring]. pose proof (factor a u e Ha He). lra.
Qed.

(** One difference, as it is added *)
Lemma scaled_spec d : (Z.abs (G * d) <= 360000000000)%Z ->
  fin64 (scaled 0 G d) = true /\ Rabs (val64 (scaled 0 G d) - IZR (G * d) / 1000000000) <= 1440 * u.
Proof.
  intros Hd. assert (Z.abs d <= 360000000000)%Z as Hd' by (rewrite Z.abs_mul in Hd; nia).
  destruct gran_spec as (F1 & a & Ha & V1). destruct (int_spec d ltac:(lia)) as (F2 & V2).
  set (q := IZR (G * d) / 1000000000).
  assert (Rabs q <= 360) as Hq.
  { unfold q, Rdiv. rewrite Rabs_mult, (Rabs_right (/ 1000000000)) by lra. rewrite <- abs_IZR. apply IZR_le in Hd. lra. }
  assert (Rabs a <= 2 /\ / 2 <= Rabs a) as [Ha2 Ha3].
  { unfold u in Ha. apply Rabs_le_inv in Ha. rewrite Rabs_right by lra. lra. }
  assert (val64 (block_granularity G) * val64 (to_double d) = q * a) as E.
  { rewrite V1, V2. unfold q. rewrite mult_IZR. unfold Rdiv. ring. }
  assert (Rabs (q * a) <= 1000) as Hqa.
  { rewrite Rabs_mult. apply (Rle_trans _ (360 * 2)); [apply Rmult_le_compat; first [apply Rabs_pos|done]|lra]. }
  destruct (mult_spec _ _ F1 F2) as (F3 & V3); [rewrite E; by apply big|].
  set (p := b64_mult BinarySingleNaN.mode_NE (block_granularity G) (to_double d)) in *.
  assert (Rabs (val64 p - q) <= 1440 * u /\ Rabs (val64 p) <= 1000) as [Hp Hp'].
  { rewrite V3, E. destruct (rel (q * a)) as (e & He & Ee).
    { destruct (Z.eq_dec d 0%Z) as [-> |Hne].
      - left. unfold q. rewrite Z.mul_0_r. unfold Rdiv. ring.
      - right. rewrite Rabs_mult. assert (/ 1000000000 <= Rabs q) as Hql.
        { unfold q, Rdiv. rewrite Rabs_mult, (Rabs_right (/ 1000000000)) by lra. rewrite <- abs_IZR.
          assert (1 <= Z.abs (G * d))%Z as H1 by (rewrite Z.abs_mul; nia). apply IZR_le in H1. lra. }
        apply (Rle_trans _ (/ 1000000000 * / 2)); [lra|]. apply Rmult_le_compat; lra. }
    rewrite Ee. pose proof (factor a _ e Ha He) as Hf.
    replace (q * a * (1 + e) - q) with (q * (a * (1 + e) - 1)) by ring.
    assert (2 * u + u * u + u + (2 * u + u * u) * u <= 4 * u) as Hu by (unfold u; lra).
    assert (Rabs (q * (a * (1 + e) - 1)) <= 1440 * u) as Hx.
    { rewrite Rabs_mult. apply (Rle_trans _ (360 * (4 * u))); [apply Rmult_le_compat; first [apply Rabs_pos|done|lra]|lra]. }
    split; [done|]. replace (q * a * (1 + e)) with (q * (a * (1 + e) - 1) + q) by ring.
    apply (Rle_trans _ _ _ (Rabs_triang _ _)). unfold u in Hx. lra. }
  destruct nano_spec as (FN & _). destruct (int_spec 0 ltac:(lia)) as (F0 & V0).
  destruct (mult_spec nano (to_double 0) FN F0) as (FO & VO).
  { rewrite V0, Rmult_0_r. apply big. rewrite Rabs_R0. lra. }
  rewrite V0, Rmult_0_r, round_0 in VO by apply valid_rnd_N.
  destruct (plus_spec (block_offset 0) p FO F3) as (FS & VS).
  { unfold block_offset. rewrite VO, Rplus_0_l. by apply big. }
  unfold block_offset in VS. rewrite VO, Rplus_0_l in VS.
  rewrite round_generic in VS; [|apply valid_rnd_N|exact (generic_format_B2R 53 1024 p)].
  fold (block_offset 0) in VS. unfold scaled. fold p. rewrite VS. done.
Qed.

(** Adding a difference to a coordinate *)
Lemma step_spec x k d err :
  fin64 x = true -> Rabs (val64 x - IZR (G * k) / 1000000000) <= err -> err <= 1 ->
  (Z.abs (G * k) <= 180000000000)%Z -> (Z.abs (G * (k + d)) <= 180000000000)%Z ->
  let y := b64_plus BinarySingleNaN.mode_NE x (scaled 0 G d) in
  fin64 y = true /\ Rabs (val64 y - IZR (G * (k + d)) / 1000000000) <= err + / 4398046511104.
Proof.
  intros Fx Hx Herr Hk Hkd y. destruct (scaled_spec d) as (Fs & Hs); [lia|].
  set (s := scaled 0 G d) in *. set (q := IZR (G * k) / 1000000000) in *. set (q' := IZR (G * (k + d)) / 1000000000).
  assert (q + IZR (G * d) / 1000000000 = q') as Eq.
  { unfold q, q'. rewrite Z.mul_add_distr_l, plus_IZR. lra. }
  assert (Rabs q' <= 180) as Hq'.
  { unfold q', Rdiv. rewrite Rabs_mult, (Rabs_right (/ 1000000000)) by lra. rewrite <- abs_IZR. apply IZR_le in Hkd. lra. }
  assert (Rabs (val64 x + val64 s - q') <= err + 1440 * u) as Hsum.
  { replace (val64 x + val64 s - q') with ((val64 x - q) + (val64 s - IZR (G * d) / 1000000000)) by lra.
    apply (Rle_trans _ _ _ (Rabs_triang _ _)). lra. }
  assert (Rabs (val64 x + val64 s) < 256) as Hlt.
  { replace (val64 x + val64 s) with ((val64 x + val64 s - q') + q') by ring.
    apply (Rle_lt_trans _ _ _ (Rabs_triang _ _)). unfold u in Hsum. lra. }
  destruct (plus_spec x s Fx Fs) as (Fy & Vy); [apply big; lra|]. fold y in Fy, Vy. split; [done|]. rewrite Vy.
  pose proof (error_le_half_ulp radix2 (FLT_exp (-1074) 53) (fun x => negb (Z.even x)) (val64 x + val64 s)) as E1.
  pose proof (ulp_bound (-1074) 53 (val64 x + val64 s) ltac:(lia) ltac:(lia) Hlt) as U1.
  change (bpow radix2 (8 - 53)) with (/ 35184372088832) in U1.
  replace (rnd64 (val64 x + val64 s) - q') with ((rnd64 (val64 x + val64 s) - (val64 x + val64 s)) + (val64 x + val64 s - q')) by ring.
  apply (Rle_trans _ _ _ (Rabs_triang _ _)). unfold u in Hsum. lra.
Qed.

Lemma dense_spec x k err ds :
  fin64 x = true -> Rabs (val64 x - IZR (G * k) / 1000000000) <= err ->
  err + INR (length ds) / 4398046511104 <= 1 ->
  (Z.abs (G * k) <= 180000000000)%Z -> on_earth G (running_sums k ds) ->
  forall i n, running_sums k ds !! i = Some n ->
    exists y, dense_coordinates 0 G x ds !! i = Some y /\ fin64 y = true /\
      Rabs (val64 y - IZR (G * n) / 1000000000) <= err + INR (S i) / 4398046511104.
Proof.
  revert x k err. induction ds as [|d ds IH]; intros x k err Fx Hx Herr Hk Hs i n Hn; [done|].
  cbn [running_sums] in Hs, Hn. apply Forall_cons in Hs as [Hkd Hs].
  cbn [length] in Herr. rewrite S_INR in Herr. pose proof (pos_INR (length ds)) as Hpos.
  destruct (step_spec x k d err Fx Hx ltac:(lra) Hk Hkd) as (Fy & Hy).
  cbn [dense_coordinates]. set (y := b64_plus BinarySingleNaN.mode_NE x (scaled 0 G d)) in *. cbv zeta.
  destruct i as [|i].
  - cbn in Hn. injection Hn as <-. exists y. split; [done|]. split; [done|]. change (INR 1) with 1. lra.
  - change (running_sums (k + d) ds !! i = Some n) in Hn.
    destruct (IH y (k + d)%Z (err + / 4398046511104) Fy Hy ltac:(lra) Hkd Hs i n Hn) as (z & Hz & Fz & Bz).
    exists z. split; [done|]. split; [done|]. rewrite (S_INR (S i)). lra.
Qed.
End block.

Lemma dense_error G ds i n :
  (1 <= G <= 180000000000)%Z -> (Z.of_nat (length ds) <= 1099511627776)%Z -> on_earth G (running_sums 0 ds) ->
  running_sums 0 ds !! i = Some n ->
  exists y, dense_coordinates 0 G zero64 ds !! i = Some y /\ fin64 y = true /\
    Rabs (val64 y - IZR (G * n) / 1000000000) <= INR (S i) / 4398046511104.
Proof.
  intros HG Hl Hs Hn. destruct (dense_spec G HG zero64 0 0 ds) with (i := i) (n := n) as (y & H1 & H2 & H3).
  - done.
  - rewrite Z.mul_0_r. cbn [zero64 B2R]. unfold Rdiv. rewrite Rmult_0_l, Rminus_0_r, Rabs_R0. lra.
  - rewrite INR_IZR_INZ. apply IZR_le in Hl. lra.
  - lia.
  - done.
  - done.
  - exists y. split; [done|]. split; [done|]. lra.
Qed.

(** ** Consequences *)
(** The right number can be read off. *)
Lemma nearest ds i n m y :
  (Z.of_nat (length ds) <= 200000)%Z -> on_earth 100 (running_sums 0 ds) ->
  running_sums 0 ds !! i = Some n -> dense_coordinates 0 100 zero64 ds !! i = Some y -> m <> n ->
  Rabs (val64 y - IZR n / 10000000) < Rabs (val64 y - IZR m / 10000000).
Proof.
  intros Hl Hs Hn Hy Hm. destruct (dense_error 100 ds i n ltac:(lia) ltac:(lia) Hs Hn) as (y' & Hy' & _ & Hb).
  rewrite Hy in Hy'. injection Hy' as <-.
  assert (i < length ds)%nat as Hi.
  { apply lookup_lt_Some in Hy. clear -Hy. revert i Hy. generalize zero64. induction ds as [|d ds IH]; intros x i Hy; cbn in Hy; [lia|].
    destruct i; [cbn; lia|]. specialize (IH _ i (proj2 (Nat.succ_lt_mono _ _) Hy)). cbn. lia. }
  assert (INR (S i) / 4398046511104 <= / 21000000) as Hsm.
  { rewrite INR_IZR_INZ. assert (Z.of_nat (S i) <= 200000)%Z as H by lia. apply IZR_le in H. lra. }
  assert (IZR (100 * n) / 1000000000 = IZR n / 10000000) as En by (rewrite mult_IZR; lra). rewrite En in Hb.
  apply (Rle_lt_trans _ (/ 21000000)); [lra|].
  assert (/ 10000000 <= Rabs (IZR n / 10000000 - IZR m / 10000000)) as Hd.
  { unfold Rdiv. rewrite <- Rmult_minus_distr_r, <- minus_IZR, Rabs_mult, (Rabs_right (/ 10000000)) by lra.
    rewrite <- abs_IZR. assert (1 <= Z.abs (n - m))%Z as H by lia. apply IZR_le in H. lra. }
  pose proof (Rabs_triang (IZR n / 10000000 - val64 y) (val64 y - IZR m / 10000000)) as Ht.
  replace (IZR n / 10000000 - val64 y + (val64 y - IZR m / 10000000)) with (IZR n / 10000000 - IZR m / 10000000) in Ht by ring.
  rewrite Rabs_minus_sym in Ht. rewrite (Rabs_minus_sym (IZR m / 10000000)) in Ht.
  rewrite (Rabs_minus_sym (IZR n / 10000000) (val64 y)) in Ht. lra.
Qed.

(** What the graph builder stores *)
Lemma stored_error G ds i n :
  (1 <= G <= 180000000000)%Z -> (Z.of_nat (length ds) <= 200000)%Z -> on_earth G (running_sums 0 ds) ->
  running_sums 0 ds !! i = Some n ->
  exists y, dense_coordinates 0 G zero64 ds !! i = Some y /\ is_finite 24 128 (stored y) = true /\
    Rabs (val32 (stored y) - IZR (G * n) / 1000000000) <= 8 / 1000000.
Proof.
  intros HG Hl Hs Hn. destruct (dense_error G ds i n HG ltac:(lia) Hs Hn) as (y & Hy & Fy & Hb).
  exists y. split; [done|].
  assert (i < length ds)%nat as Hi.
  { apply lookup_lt_Some in Hy. clear -Hy. revert i Hy. generalize zero64. induction ds as [|d ds IH]; intros x i Hy; cbn in Hy; [lia|].
    destruct i; [cbn; lia|]. specialize (IH _ i (proj2 (Nat.succ_lt_mono _ _) Hy)). cbn. lia. }
  assert (INR (S i) / 4398046511104 <= / 21000000) as Hsm.
  { rewrite INR_IZR_INZ. assert (Z.of_nat (S i) <= 200000)%Z as H by lia. apply IZR_le in H. lra. }
  set (q := IZR (G * n) / 1000000000) in *.
  assert (Rabs q <= 180) as Hq.
  { apply (Forall_lookup_1 _ _ _ _ Hs) in Hn. unfold q, Rdiv. rewrite Rabs_mult, (Rabs_right (/ 1000000000)) by lra. rewrite <- abs_IZR. apply IZR_le in Hn. lra. }
  assert (bpow radix2 8 = 256) as B8 by reflexivity.
  assert (Rabs (val64 y) < bpow radix2 8) as Hlt.
  { rewrite B8. replace (val64 y) with ((val64 y - q) + q) by ring. apply (Rle_lt_trans _ _ _ (Rabs_triang _ _)). lra. }
  destruct (to_float_spec y Fy) as (Ff & Vf).
  { apply Rlt_le, (Rlt_trans _ _ _ Hlt). by apply bpow_lt. }
  split; [done|]. unfold stored. rewrite Vf.
  pose proof (error_le_half_ulp radix2 (FLT_exp (-149) 24) (fun x => negb (Z.even x)) (val64 y)) as E2.
  pose proof (ulp_bound (-149) 24 (val64 y) ltac:(lia) ltac:(lia) Hlt) as U2.
  assert (bpow radix2 (8 - 24) = / 65536) as B2 by reflexivity. rewrite B2 in U2.
  replace (rnd32 (val64 y) - q) with ((rnd32 (val64 y) - val64 y) + (val64 y - q)) by ring.
  apply (Rle_trans _ _ _ (Rabs_triang _ _)). lra.
Qed.

(** Sparse nodes have one rounding less. *)
Lemma sparse_error G k :
  (1 <= G <= 180000000000)%Z -> (Z.abs (G * k) <= 180000000000)%Z ->
  fin64 (scaled 0 G k) = true /\ Rabs (val64 (scaled 0 G k) - IZR (G * k) / 1000000000) <= / 4398046511104.
Proof.
  intros HG Hk. destruct (scaled_spec G HG k) as (F & H); [lia|]. split; [done|]. unfold u in H. lra.
Qed.
