(** * C84: the coordinates of OSM nodes in floating point *)
From Coq Require Import ZArith Reals Lra.
From Flocq Require Import IEEE754.Binary IEEE754.Bits.
From Verif Require Import Base FloatModel FloatProofs OsmFloatSpec OsmFloatModel OsmFloatProofs.
Ltac Zify.zify_post_hook ::= idtac.
Local Open Scope R_scope.

(** The full statement: every node gets the double nearest to its coordinate. It is false
    (C84_nearest_double_refuted); nodes are summed up in floating point, so that the error grows with
    the number of nodes before. All theorems are about blocks without offsets. *)

(** The coordinate of the [i]-th node of a dense group is wrong by at most [i + 1] times 2^-42 degrees. *)
Theorem C84_dense_partial : forall granularity ds i n,
  (1 <= granularity <= 180000000000)%Z -> (Z.of_nat (length ds) <= 1099511627776)%Z -> on_earth granularity (running_sums 0 ds) ->
  running_sums 0 ds !! i = Some n ->
  exists y, dense_coordinates 0 granularity zero64 ds !! i = Some y /\ is_finite 53 1024 y = true /\
    Rabs (B2R 53 1024 y - IZR (granularity * n) / 1000000000) <= INR (S i) / 4398046511104.
Proof. apply dense_error. Qed.
Print Assumptions C84_dense_partial.

(** A node outside of dense groups: one difference only. *)
Theorem C84_sparse_partial : forall granularity k,
  (1 <= granularity <= 180000000000)%Z -> (Z.abs (granularity * k) <= 180000000000)%Z ->
  is_finite 53 1024 (scaled 0 granularity k) = true /\
  Rabs (B2R 53 1024 (scaled 0 granularity k) - IZR (granularity * k) / 1000000000) <= / 4398046511104.
Proof. apply sparse_error. Qed.
Print Assumptions C84_sparse_partial.

(** In blocks with the usual granularity, 10^-7 degrees, and at most 200000 nodes the coordinate
    can be read off: no other coordinate is as near. *)
Theorem C84_nearest_partial : forall ds i n m y,
  (Z.of_nat (length ds) <= 200000)%Z -> on_earth 100 (running_sums 0 ds) ->
  running_sums 0 ds !! i = Some n -> dense_coordinates 0 100 zero64 ds !! i = Some y -> m <> n ->
  Rabs (B2R 53 1024 y - IZR n / 10000000) < Rabs (B2R 53 1024 y - IZR m / 10000000).
Proof. apply nearest. Qed.
Print Assumptions C84_nearest_partial.

(** The float in the graph is wrong by at most 8 millionths of a degree. *)
Theorem C84_float_partial : forall granularity ds i n,
  (1 <= granularity <= 180000000000)%Z -> (Z.of_nat (length ds) <= 200000)%Z -> on_earth granularity (running_sums 0 ds) ->
  running_sums 0 ds !! i = Some n ->
  exists y, dense_coordinates 0 granularity zero64 ds !! i = Some y /\ is_finite 24 128 (stored y) = true /\
    Rabs (B2R 24 128 (stored y) - IZR (granularity * n) / 1000000000) <= 8 / 1000000.
Proof. apply stored_error. Qed.
Print Assumptions C84_float_partial.

(** Two nodes of one group at the same place, -63.9998486 degrees, get different coordinates. *)
Theorem C84_same_place_refuted : exists ds i j n x y,
  on_earth 100 (running_sums 0 ds) /\ running_sums 0 ds !! i = Some n /\ running_sums 0 ds !! j = Some n /\
  dense_coordinates 0 100 zero64 ds !! i = Some x /\ dense_coordinates 0 100 zero64 ds !! j = Some y /\ x <> y.
Proof.
  set (ds := [-639998486; -6737; 6737]%Z).
  assert (length (dense_coordinates 0 100 zero64 ds) = 3%nat) as Hl by reflexivity.
  destruct (lookup_lt_is_Some_2 (dense_coordinates 0 100 zero64 ds) 0) as [x Ex]; [rewrite Hl; lia|].
  destruct (lookup_lt_is_Some_2 (dense_coordinates 0 100 zero64 ds) 2) as [y Ey]; [rewrite Hl; lia|].
  exists ds, 0%nat, 2%nat, (-639998486)%Z, x, y. split; [repeat constructor; vm_compute; discriminate|].
  split; [reflexivity|]. split; [reflexivity|]. split; [exact Ex|]. split; [exact Ey|]. intros ->.
  assert (bits_of_b64 <$> dense_coordinates 0 100 zero64 ds !! 0%nat = bits_of_b64 <$> dense_coordinates 0 100 zero64 ds !! 2%nat) as E by (rewrite Ex, Ey; exact eq_refl).
  clear -E. vm_compute in E. discriminate E.
Qed.
Print Assumptions C84_same_place_refuted.

(** Not even a node outside of dense groups gets the nearest double, here that of 123.456789 degrees:
    the division of the integer by 10^7 is nearer. *)
Lemma value_of x b m e : B2FF 53 1024 x = F754_finite b m e -> B2R 53 1024 x = FF2R Flocq.Core.Zaux.radix2 (F754_finite b m e).
Proof. intros <-. symmetry. apply FF2R_B2FF. Qed.
Theorem C84_nearest_double_refuted : exists k, (Z.abs (100 * k) <= 180000000000)%Z /\
  Rabs (B2R 53 1024 (b64_div BinarySingleNaN.mode_NE (to_double k) (to_double 10000000)) - IZR (100 * k) / 1000000000) <
  Rabs (B2R 53 1024 (scaled 0 100 k) - IZR (100 * k) / 1000000000).
Proof.
  exists 1234567890%Z. split; [vm_compute; discriminate|].
  rewrite (value_of (b64_div _ _ _) false 8687499202136843 (-46)) by (vm_compute; reflexivity).
  rewrite (value_of (scaled _ _ _) false 8687499202136844 (-46)) by (vm_compute; reflexivity).
  cbn [FF2R]. unfold Flocq.Core.Defs.F2R. cbn [Flocq.Core.Defs.Fnum Flocq.Core.Defs.Fexp].
  change (Flocq.Core.Raux.bpow Flocq.Core.Zaux.radix2 (-46)) with (/ 70368744177664).
  change (100 * 1234567890)%Z with 123456789000%Z. cbn [SpecFloat.cond_Zopp].
  unfold Rabs. destruct (Rcase_abs _); destruct (Rcase_abs _); lra.
Qed.
Print Assumptions C84_nearest_double_refuted.
Local Close Scope R_scope.

(** ** Example: four nodes near 49 degrees *)
Definition village : list Z := [490123456; -12; 130; 7]%Z.
Example village_places : running_sums 0 village = [490123456; 490123444; 490123574; 490123581]%Z.
Proof. reflexivity. Qed.
Example village_on_earth : on_earth 100 (running_sums 0 village).
Proof. repeat constructor; vm_compute; discriminate. Qed.
Example village_short : (Z.of_nat (length village) <= 200000)%Z.
Proof. vm_compute. discriminate. Qed.
Example village_doubles : B2FF 53 1024 <$> dense_coordinates 0 100 zero64 village =
  [F754_finite false 6897874418147312 (-47); F754_finite false 6897874249262326 (-47);
   F754_finite false 6897876078849675 (-47); F754_finite false 6897876177365917 (-47)].
Proof. vm_compute. reflexivity. Qed.
(** Two of the four nodes are the same as floats. *)
Example village_floats : (fun x => B2FF 24 128 (stored x)) <$> dense_coordinates 0 100 zero64 village =
  [F754_finite false 12848292 (-18); F754_finite false 12848292 (-18); F754_finite false 12848295 (-18); F754_finite false 12848296 (-18)].
Proof. vm_compute. reflexivity. Qed.
Example village_sparse : (Z.abs (100 * 490123456) <= 180000000000)%Z /\ (1 <= 100 <= 180000000000)%Z.
Proof. lia. Qed.
