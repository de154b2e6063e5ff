(** * Proofs about geographic distances (C65) *)
From stdpp Require Import list numbers.
From Coq Require Import Reals Lra Psatz Machin.
From Verif Require Import Base GeoTreeModel GeoTreeSpec GeoDistModel GeoDistSpec.
Local Open Scope R_scope.

(** ** Unit vectors *)
Definition unit (u : vec3) : Prop := dot u u = 1.

Lemma sc x : sin x * sin x + cos x * cos x = 1.
Proof. pose proof (sin2_cos2 x). unfold Rsqr in *. lra. Qed.

Lemma on_sphere_unit lat lon : unit (on_sphere lat lon).
Proof.
  unfold unit, dot, on_sphere; cbn.
  pose proof (sc lat) as H1. pose proof (sc lon) as H2.
  replace (cos lon * cos lat * (cos lon * cos lat) + sin lon * cos lat * (sin lon * cos lat)
    + sin lat * sin lat)
    with ((sin lon * sin lon + cos lon * cos lon) * (cos lat * cos lat) + sin lat * sin lat) by ring.
  rewrite H2. lra.
Qed.

Lemma dot_comm u v : dot u v = dot v u.
Proof. unfold dot. ring. Qed.

(** The determinant of Gram's matrix is a square. *)
Lemma gram u v w :
  0 <= dot u u * dot v v * dot w w + 2 * (dot u v * dot v w * dot u w)
       - dot u u * (dot v w * dot v w) - dot v v * (dot u w * dot u w)
       - dot w w * (dot u v * dot u v).
Proof.
  set (det := vx u * (vy v * vz w - vz v * vy w) - vy u * (vx v * vz w - vz v * vx w)
              + vz u * (vx v * vy w - vy v * vx w)).
  match goal with |- 0 <= ?g => replace g with (det * det) by (unfold det, dot; ring) end.
  apply Rle_0_sqr.
Qed.

Lemma squares3 x y z : 0 <= x * x + y * y + z * z.
Proof.
  pose proof (Rle_0_sqr x) as H1. pose proof (Rle_0_sqr y) as H2. pose proof (Rle_0_sqr z) as H3.
  unfold Rsqr in *. lra.
Qed.

Lemma squares3_zero x y z : x * x + y * y + z * z = 0 -> x = 0 /\ y = 0 /\ z = 0.
Proof.
  pose proof (Rle_0_sqr x) as H1. pose proof (Rle_0_sqr y) as H2. pose proof (Rle_0_sqr z) as H3.
  unfold Rsqr in *. intros H. split_and!; apply Rsqr_0_uniq; unfold Rsqr; lra.
Qed.

Lemma dot_bounds u v : unit u -> unit v -> -1 <= dot u v <= 1.
Proof.
  unfold unit. intros Hu Hv.
  assert (H1 : 0 <= 2 - 2 * dot u v).
  { replace (2 - 2 * dot u v) with
      ((vx u - vx v) * (vx u - vx v) + (vy u - vy v) * (vy u - vy v) + (vz u - vz v) * (vz u - vz v))
      by (unfold dot in *; lra).
    apply squares3. }
  assert (H2 : 0 <= 2 + 2 * dot u v).
  { replace (2 + 2 * dot u v) with
      ((vx u + vx v) * (vx u + vx v) + (vy u + vy v) * (vy u + vy v) + (vz u + vz v) * (vz u + vz v))
      by (unfold dot in *; lra).
    apply squares3. }
  lra.
Qed.

(** ** Angles *)
Lemma angle_acos u v : unit u -> unit v -> angle_between u v (acos (dot u v)).
Proof.
  intros Hu Hv. split; [apply acos_bound|]. apply cos_acos. by apply dot_bounds.
Qed.

Lemma angle_unique u v s t : angle_between u v s -> angle_between u v t -> s = t.
Proof.
  intros [Hs Es] [Ht Et]. rewrite <- (acos_cos s), <- (acos_cos t) by done. by rewrite Es, Et.
Qed.

Lemma angle_sym u v t : angle_between u v t -> angle_between v u t.
Proof. intros [H1 H2]. split; [done|]. by rewrite dot_comm. Qed.

(** An angle is at most [b] if its cosine is at least that of [b]. *)
Lemma angle_le u v t b : angle_between u v t -> 0 <= b -> (b <= PI -> cos b <= dot u v) -> t <= b.
Proof.
  intros [Ht Et] Hb H. destruct (Rle_dec b PI) as [Hp|Hp]; [|lra].
  apply cos_decr_0; [lra..|]. rewrite Et. auto.
Qed.

Lemma angle_triangle u v w a b c :
  unit u -> unit v -> unit w ->
  angle_between u v a -> angle_between v w b -> angle_between u w c -> c <= a + b.
Proof.
  intros Hu Hv Hw Ha Hb Hc. pose proof Ha as [[Ha0 Ha1] Ea]. pose proof Hb as [[Hb0 Hb1] Eb].
  apply (angle_le u w); [done|lra|]. intros Hp.
  rewrite cos_plus. pose proof (gram u v w) as Hg. rewrite Hu, Hv, Hw, <- Ea, <- Eb in Hg.
  set (x := dot u w) in *.
  pose proof (sin_ge_0 a Ha0 Ha1) as Sa. pose proof (sin_ge_0 b Hb0 Hb1) as Sb.
  pose proof (sc a) as Ca. pose proof (sc b) as Cb.
  assert (Hs : (x - cos a * cos b) * (x - cos a * cos b) <= (sin a * sin b) * (sin a * sin b)).
  { replace ((sin a * sin b) * (sin a * sin b)) with ((sin a * sin a) * (sin b * sin b)) by ring.
    replace (sin a * sin a) with (1 - cos a * cos a) by lra.
    replace (sin b * sin b) with (1 - cos b * cos b) by lra. lra. }
  assert (0 <= sin a * sin b) by (apply Rmult_le_pos; done).
  nra.
Qed.

Lemma angle_self u t : unit u -> angle_between u u t -> t = 0.
Proof.
  intros Hu Ht. apply (angle_unique u u); [done|]. split; [|by rewrite cos_0].
  pose proof PI_RGT_0. lra.
Qed.

Lemma angle_zero u v : unit u -> unit v -> angle_between u v 0 -> u = v.
Proof.
  intros Hu Hv [_ E]. rewrite cos_0 in E.
  assert (H : (vx u - vx v) * (vx u - vx v) + (vy u - vy v) * (vy u - vy v)
              + (vz u - vz v) * (vz u - vz v) = 0).
  { unfold unit, dot in *. lra. }
  destruct u as [a b c], v as [a' b' c']. cbn in *.
  apply squares3_zero in H as (H1 & H2 & H3).
  f_equal; lra.
Qed.

(** ** The formula of [geo_dist] *)
Lemma geo_dist_dot lat_a lon_a lat_b lon_b :
  geo_dist lat_a lon_a lat_b lon_b =
  earth_radius * acos (dot (on_sphere (lat_a * pi_div_180) (lon_a * pi_div_180))
                           (on_sphere (lat_b * pi_div_180) (lon_b * pi_div_180))).
Proof.
  unfold geo_dist. rewrite Rmult_comm. f_equal. f_equal.
  replace ((lat_a - lat_b) * pi_div_180) with (lat_a * pi_div_180 - lat_b * pi_div_180) by ring.
  replace ((lat_a + lat_b) * pi_div_180) with (lat_a * pi_div_180 + lat_b * pi_div_180) by ring.
  replace ((lon_a - lon_b) * pi_div_180) with (lon_a * pi_div_180 - lon_b * pi_div_180) by ring.
  rewrite !cos_minus, cos_plus. unfold dot, on_sphere; cbn. lra.
Qed.

Lemma geo_dist_great_circle lat_a lon_a lat_b lon_b :
  great_circle 3.14159265359 earth_radius lat_a lon_a lat_b lon_b (geo_dist lat_a lon_a lat_b lon_b).
Proof.
  eexists. split; [apply geo_dist_dot|].
  replace (3.14159265359 / 180) with pi_div_180 by (unfold pi_div_180; f_equal; lra).
  apply angle_acos; apply on_sphere_unit.
Qed.

Lemma radius_pos : 0 < earth_radius.
Proof. unfold earth_radius. lra. Qed.

(** ** A metric *)
Lemma compute_distance_angle x y : exists t, compute_distance x y = earth_radius * t /\
  angle_between (on_sphere (x.1 * pi_div_180) (x.2 * pi_div_180))
                (on_sphere (y.1 * pi_div_180) (y.2 * pi_div_180)) t.
Proof.
  eexists. split; [apply geo_dist_dot|]. apply angle_acos; apply on_sphere_unit.
Qed.

Lemma compute_distance_sym x y : compute_distance x y = compute_distance y x.
Proof.
  destruct (compute_distance_angle x y) as (s & -> & Hs).
  destruct (compute_distance_angle y x) as (t & -> & Ht).
  f_equal. eapply angle_unique; [exact Hs|]. by apply angle_sym.
Qed.

Lemma compute_distance_self x : compute_distance x x = 0.
Proof.
  destruct (compute_distance_angle x x) as (s & -> & Hs).
  rewrite (angle_self _ s (on_sphere_unit _ _) Hs). ring.
Qed.

Lemma compute_distance_bounds x y : 0 <= compute_distance x y <= earth_radius * PI.
Proof.
  destruct (compute_distance_angle x y) as (s & -> & [Hs _]).
  pose proof radius_pos. split; [apply Rmult_le_pos; lra|apply Rmult_le_compat_l; lra].
Qed.

Lemma compute_distance_triangle x y z :
  compute_distance x z <= compute_distance x y + compute_distance y z.
Proof.
  destruct (compute_distance_angle x y) as (s & -> & Hs).
  destruct (compute_distance_angle y z) as (t & -> & Ht).
  destruct (compute_distance_angle x z) as (r & -> & Hr).
  rewrite <- Rmult_plus_distr_l. apply Rmult_le_compat_l; [apply Rlt_le, radius_pos|].
  eapply angle_triangle; [..|exact Hs|exact Ht|exact Hr]; apply on_sphere_unit.
Qed.

Lemma compute_distance_zero x y :
  compute_distance x y = 0 <->
  on_sphere (x.1 * pi_div_180) (x.2 * pi_div_180) = on_sphere (y.1 * pi_div_180) (y.2 * pi_div_180).
Proof.
  destruct (compute_distance_angle x y) as (s & -> & Hs). pose proof radius_pos. split.
  - intros H0. apply angle_zero; [apply on_sphere_unit..|].
    assert (s = 0) as <-; [|done]. apply Rmult_integral in H0 as [?|?]; lra.
  - intros E. rewrite E in Hs. apply angle_self in Hs; [|apply on_sphere_unit]. rewrite Hs. ring.
Qed.

Lemma r_ops_le a b : dle r_ops a b = true <-> a <= b.
Proof. cbn. by destruct (Rle_dec a b). Qed.

Lemma r_laws : dist_laws r_ops.
Proof.
  split; intros *; rewrite ?r_ops_le; cbn [dadd dsub r_ops]; try lra.
Qed.

Lemma geo_metric : metric r_ops compute_distance.
Proof.
  split; intros *; rewrite ?r_ops_le; cbn [dadd r_ops].
  - apply compute_distance_sym.
  - rewrite compute_distance_self. apply compute_distance_bounds.
  - apply compute_distance_triangle.
Qed.

(** ** The formula in [construct_tree] *)
Lemma half_angle a t : 0 <= a <= 1 -> 0 <= t <= PI -> cos t = 1 - 2 * a ->
  2 * atan2 (R_sqrt.sqrt a) (R_sqrt.sqrt (1 - a)) = t.
Proof.
  intros Ha Ht E. pose proof PI_RGT_0 as Hpi.
  assert (Hh : 0 <= t / 2 <= PI / 2) by lra.
  assert (S0 : 0 <= sin (t / 2)) by (apply sin_ge_0; lra).
  assert (C0 : 0 <= cos (t / 2)) by (apply cos_ge_0; lra).
  assert (E2 : cos t = 1 - 2 * (sin (t / 2) * sin (t / 2))).
  { replace t with (2 * (t / 2)) at 1 by lra. rewrite cos_2a_sin. ring. }
  pose proof (sc (t / 2)) as Hsc.
  assert (Es : R_sqrt.sqrt a = sin (t / 2)).
  { replace a with (sin (t / 2) * sin (t / 2)) by lra. by apply sqrt_square. }
  assert (Ec : R_sqrt.sqrt (1 - a) = cos (t / 2)).
  { replace (1 - a) with (cos (t / 2) * cos (t / 2)) by lra. by apply sqrt_square. }
  rewrite Es, Ec. unfold atan2.
  destruct (Rlt_dec 0 (cos (t / 2))) as [Hc|Hc].
  - assert (t / 2 <> PI / 2) by (intros Hx; rewrite Hx, cos_PI2 in Hc; lra).
    change (sin (t / 2) / cos (t / 2)) with (tan (t / 2)).
    rewrite atan_tan by lra. lra.
  - destruct (Rlt_dec (cos (t / 2)) 0) as [Hc'|Hc']; [lra|].
    assert (Hz : cos (t / 2) = 0) by lra.
    destruct (Rlt_dec 0 (sin (t / 2))) as [Hs|Hs].
    + enough (t / 2 = PI / 2) by lra.
      rewrite <- (acos_cos (t / 2)) by lra. by rewrite Hz, acos_0.
    + rewrite Hz in Hsc. assert (sin (t / 2) = 0) as Hs0 by lra. rewrite Hs0 in Hsc. lra.
Qed.

Lemma haversine la oa b :
  lane (to_radian la) (to_radian oa) b =
  (1 - dot (on_sphere (la * pi_div_180) (oa * pi_div_180))
           (on_sphere (b.1 * pi_div_180) (b.2 * pi_div_180))) / 2.
Proof.
  unfold lane.
  assert (Er : forall x, to_radian x = x * pi_div_180).
  { intros x. unfold to_radian, inv_180, tree_pi, pi_div_180. lra. }
  rewrite !Er. set (p := la * pi_div_180). set (q := oa * pi_div_180).
  set (r := b.1 * pi_div_180). set (s := b.2 * pi_div_180).
  assert (H : forall x, sin (x * 0.5) * sin (x * 0.5) = (1 - cos x) / 2).
  { intros x. replace x with (2 * (x * 0.5)) at 3 by lra. rewrite cos_2a_sin. lra. }
  rewrite !H, !cos_minus. unfold dot, on_sphere; cbn. lra.
Qed.

Lemma lane_distance_ok a b :
  lane_distance (lane (to_radian a.1) (to_radian a.2) b) = compute_distance a b.
Proof.
  unfold compute_distance. rewrite geo_dist_dot, haversine.
  set (u := on_sphere _ _). set (v := on_sphere _ _).
  assert (Hu : unit u) by apply on_sphere_unit. assert (Hv : unit v) by apply on_sphere_unit.
  unfold lane_distance. change tree_R with earth_radius. f_equal.
  pose proof (dot_bounds u v Hu Hv). pose proof (angle_acos u v Hu Hv) as [H1 H2].
  apply half_angle; [lra|done|]. rewrite H2. lra.
Qed.

(** ** Moving a point a little *)
Lemma angle_move_lat lat lat' lon t :
  angle_between (on_sphere lat lon) (on_sphere lat' lon) t -> t <= Rabs (lat - lat').
Proof.
  intros H. apply (angle_le _ _ _ _ H); [apply Rabs_pos|]. intros _.
  assert (E : dot (on_sphere lat lon) (on_sphere lat' lon) = cos (lat - lat')).
  { rewrite cos_minus. unfold dot, on_sphere; cbn. pose proof (sc lon) as S.
    replace (cos lon * cos lat * (cos lon * cos lat') + sin lon * cos lat * (sin lon * cos lat')
       + sin lat * sin lat')
      with ((sin lon * sin lon + cos lon * cos lon) * (cos lat * cos lat') + sin lat * sin lat') by ring.
    rewrite S. ring. }
  rewrite E. destruct (Rcase_abs (lat - lat')) as [Hn|Hn].
  - rewrite Rabs_left by done. rewrite cos_neg. lra.
  - rewrite Rabs_right by done. lra.
Qed.

Lemma angle_move_lon lat lon lon' t :
  angle_between (on_sphere lat lon) (on_sphere lat lon') t -> t <= Rabs (lon - lon').
Proof.
  intros H. apply (angle_le _ _ _ _ H); [apply Rabs_pos|]. intros _.
  assert (E : dot (on_sphere lat lon) (on_sphere lat lon') =
              cos lat * cos lat * cos (lon - lon') + sin lat * sin lat).
  { rewrite cos_minus. unfold dot, on_sphere; cbn. ring. }
  assert (Ea : cos (Rabs (lon - lon')) = cos (lon - lon')).
  { destruct (Rcase_abs (lon - lon')) as [Hn|Hn].
    - rewrite Rabs_left by done. by rewrite cos_neg.
    - rewrite Rabs_right by done. done. }
  rewrite Ea, E. pose proof (sc lat). pose proof (COS_bound (lon - lon')).
  assert (0 <= sin lat * sin lat) by nra.
  replace (cos lat * cos lat) with (1 - sin lat * sin lat) by lra. nra.
Qed.

Lemma angle_move lat lon lat' lon' t :
  angle_between (on_sphere lat lon) (on_sphere lat' lon') t ->
  t <= Rabs (lat - lat') + Rabs (lon - lon').
Proof.
  intros H.
  pose proof (angle_acos _ _ (on_sphere_unit lat lon) (on_sphere_unit lat' lon)) as H1.
  pose proof (angle_acos _ _ (on_sphere_unit lat' lon) (on_sphere_unit lat' lon')) as H2.
  pose proof (angle_move_lat _ _ _ _ H1). pose proof (angle_move_lon _ _ _ _ H2).
  assert (t <= acos (dot (on_sphere lat lon) (on_sphere lat' lon))
             + acos (dot (on_sphere lat' lon) (on_sphere lat' lon'))).
  { eapply angle_triangle; [..|exact H1|exact H2|exact H]; apply on_sphere_unit. }
  lra.
Qed.

(** Changing both points changes the angle at most by how far they move. *)
Lemma angle_change u v u' v' t t' a b :
  unit u -> unit v -> unit u' -> unit v' ->
  angle_between u v t -> angle_between u' v' t' ->
  angle_between u u' a -> angle_between v v' b -> t <= a + b + t'.
Proof.
  intros Hu Hv Hu' Hv' Ht Ht' Ha Hb.
  pose proof (angle_acos u v' Hu Hv') as Hm.
  assert (acos (dot u v') <= a + t') by (eapply (angle_triangle u u' v'); done).
  assert (t <= acos (dot u v') + b).
  { eapply (angle_triangle u v' v); try done. by apply angle_sym. }
  lra.
Qed.

(** ** The constant for [pi] *)
Lemma pi_below : PI <= 3.14159265359.
Proof.
  destruct (PI_2_3_7_ineq 6) as [_ H].
  unfold tg_alt, PI_2_3_7_tg, Ratan_seq in H.
  cbn [sum_f_R0 Nat.mul Nat.add] in H.
  rewrite !INR_IZR_INZ in H.
  cbn [Z.of_nat Pos.of_succ_nat Pos.succ] in H.
  cbn [Rpow_def.pow] in H.
  field_simplify in H. lra.
Qed.

Lemma pi_above : 3.14159265359 - 0.00000000000022 <= PI.
Proof.
  destruct (PI_2_3_7_ineq 6) as [H _].
  unfold tg_alt, PI_2_3_7_tg, Ratan_seq in H.
  cbn [sum_f_R0 Nat.mul Nat.add] in H.
  rewrite !INR_IZR_INZ in H.
  cbn [Z.of_nat Pos.of_succ_nat Pos.succ] in H.
  cbn [Rpow_def.pow] in H.
  field_simplify in H. lra.
Qed.

Lemma pi_close : 3.14159265359 - 0.00000000000022 <= PI <= 3.14159265359.
Proof. split; [apply pi_above|apply pi_below]. Qed.

(** How far a point moves if the constant is replaced by the exact one. *)
Lemma move_bound lat lon t : coordinates lat lon ->
  angle_between (on_sphere (lat * pi_div_180) (lon * pi_div_180))
                (on_sphere (lat * (PI / 180)) (lon * (PI / 180))) t ->
  t <= 0.00000000000033.
Proof.
  intros [H1 H2] Ht. apply angle_move in Ht. pose proof pi_close as Hp.
  set (delta := pi_div_180 - PI / 180).
  assert (Hd : 0 <= delta <= 0.00000000000022 / 180) by (unfold delta, pi_div_180; lra).
  assert (E1 : Rabs (lat * pi_div_180 - lat * (PI / 180)) = Rabs lat * delta).
  { replace (lat * pi_div_180 - lat * (PI / 180)) with (lat * delta) by (unfold delta; ring).
    rewrite Rabs_mult, (Rabs_right delta) by lra. done. }
  assert (E2 : Rabs (lon * pi_div_180 - lon * (PI / 180)) = Rabs lon * delta).
  { replace (lon * pi_div_180 - lon * (PI / 180)) with (lon * delta) by (unfold delta; ring).
    rewrite Rabs_mult, (Rabs_right delta) by lra. done. }
  rewrite E1, E2, <- Rmult_plus_distr_r in Ht.
  assert (Rabs lat <= 90) by (apply Rabs_le; lra).
  assert (Rabs lon <= 180) by (apply Rabs_le; lra).
  assert ((Rabs lat + Rabs lon) * delta <= 270 * (0.00000000000022 / 180)).
  { apply Rmult_le_compat; try lra.
    pose proof (Rabs_pos lat). pose proof (Rabs_pos lon). lra. }
  lra.
Qed.

Lemma geo_dist_close lat_a lon_a lat_b lon_b d :
  coordinates lat_a lon_a -> coordinates lat_b lon_b ->
  great_circle PI earth_radius lat_a lon_a lat_b lon_b d ->
  Rabs (geo_dist lat_a lon_a lat_b lon_b - d) <= 0.000005.
Proof.
  intros Ha Hb (t & -> & Ht). rewrite geo_dist_dot.
  set (u := on_sphere _ _) in *. set (v := on_sphere (lat_b * (PI / 180)) _) in Ht.
  set (u' := on_sphere (lat_a * pi_div_180) _). set (v' := on_sphere (lat_b * pi_div_180) _).
  assert (Hu : unit u) by apply on_sphere_unit. assert (Hv : unit v) by apply on_sphere_unit.
  assert (Hu' : unit u') by apply on_sphere_unit. assert (Hv' : unit v') by apply on_sphere_unit.
  pose proof (angle_acos u' v' Hu' Hv') as Hs. set (s := acos (dot u' v')) in *.
  pose proof (angle_acos u' u Hu' Hu) as H1. pose proof (angle_acos v' v Hv' Hv) as H2.
  pose proof (move_bound lat_a lon_a _ Ha H1). pose proof (move_bound lat_b lon_b _ Hb H2).
  pose proof (angle_change _ _ _ _ _ _ _ _ Hu' Hv' Hu Hv Hs Ht H1 H2).
  pose proof (angle_change _ _ _ _ _ _ _ _ Hu Hv Hu' Hv' Ht Hs
                (angle_sym _ _ _ H1) (angle_sym _ _ _ H2)).
  rewrite <- Rmult_minus_distr_l, Rabs_mult, (Rabs_right earth_radius)
    by (pose proof radius_pos; lra).
  assert (Hd : Rabs (s - t) <= 0.00000000000066) by (apply Rabs_le; lra).
  pose proof radius_pos.
  assert (earth_radius * Rabs (s - t) <= earth_radius * 0.00000000000066)
    by (apply Rmult_le_compat_l; lra).
  unfold earth_radius in *. lra.
Qed.
