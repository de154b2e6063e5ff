(** * C65, C66 and C67: geographic distances

    The theorems of this file are about real numbers and rest on the axioms of the
    real numbers in Coq's standard library. *)
From stdpp Require Import list numbers.
From Coq Require Import Reals Lra.
From Verif Require Import Base ProtobufModel VectorIoModel GraphSpec PathSpec ChFileModel VerifyModel VerifyProofs DistanceToolModel Properties_VectorIo.
From Verif Require Import GeoTreeModel GeoTreeSpec GeoTreeProofs Properties_GeoTree GeoDistModel GeoDistSpec GeoDistProofs GeoIndexProofs GeoToolModel GeoToolProofs.
From Verif Require Import VectorIoProofs WalkSpec DistanceToolSpec DistanceToolProofs.
Local Open Scope R_scope.

(** ** C65 *)
(** [geo_dist] is the length of a great circle on a sphere, if the constant of the
    code is taken for [pi] in the conversion into radians. *)
Theorem C65_great_circle lat_a lon_a lat_b lon_b :
  great_circle 3.14159265359 6371000.785 lat_a lon_a lat_b lon_b (geo_dist lat_a lon_a lat_b lon_b).
Proof. apply geo_dist_great_circle. Qed.
Print Assumptions C65_great_circle.

(** That constant is not [pi]; within the range of coordinates that the
    documentation allows, the result is off by at most five micrometers. *)
Theorem C65_error lat_a lon_a lat_b lon_b d :
  coordinates lat_a lon_a -> coordinates lat_b lon_b ->
  great_circle PI 6371000.785 lat_a lon_a lat_b lon_b d ->
  Rabs (geo_dist lat_a lon_a lat_b lon_b - d) <= 0.000005.
Proof. apply geo_dist_close. Qed.
Print Assumptions C65_error.

(** There is exactly one such length. *)
Theorem C65_unique lat_a lon_a lat_b lon_b : exists! d,
  great_circle PI 6371000.785 lat_a lon_a lat_b lon_b d.
Proof.
  eexists. split.
  - eexists. split; [reflexivity|]. apply angle_acos; apply on_sphere_unit.
  - intros d (t & -> & Ht). f_equal. eapply angle_unique; [|exact Ht]. apply angle_acos; apply on_sphere_unit.
Qed.
Print Assumptions C65_unique.

(** A metric on the points of the sphere. *)
Theorem C65_metric x1 x2 y1 y2 z1 z2 :
  0 <= geo_dist x1 x2 y1 y2 <= 6371000.785 * PI /\
  geo_dist x1 x2 y1 y2 = geo_dist y1 y2 x1 x2 /\
  geo_dist x1 x2 z1 z2 <= geo_dist x1 x2 y1 y2 + geo_dist y1 y2 z1 z2 /\
  (geo_dist x1 x2 y1 y2 = 0 <->
   on_sphere (x1 * (3.14159265359 / 180)) (x2 * (3.14159265359 / 180))
   = on_sphere (y1 * (3.14159265359 / 180)) (y2 * (3.14159265359 / 180))).
Proof.
  split; [apply (compute_distance_bounds (x1, x2) (y1, y2))|].
  split; [apply (compute_distance_sym (x1, x2) (y1, y2))|].
  split; [apply (compute_distance_triangle (x1, x2) (y1, y2) (z1, z2))|].
  replace (3.14159265359 / 180) with pi_div_180 by (unfold pi_div_180; f_equal; lra).
  apply (compute_distance_zero (x1, x2) (y1, y2)).
Qed.
Print Assumptions C65_metric.

(** The constructor of the index uses another formula, with the same result. *)
Theorem C65_haversine a b :
  lane_distance (lane (to_radian a.1) (to_radian a.2) b) = geo_dist a.1 a.2 b.1 b.2.
Proof. apply lane_distance_ok. Qed.
Print Assumptions C65_haversine.

(** From the equator to a point [x] degrees to the north of it. *)
Example C65_meridian x lon : 0 <= x <= 90 ->
  geo_dist 0 lon x lon = 6371000.785 * (x * (3.14159265359 / 180)).
Proof.
  intros Hx. destruct (C65_great_circle 0 lon x lon) as (t & -> & Ht). f_equal.
  eapply angle_unique; [exact Ht|]. pose proof pi_close. split; [lra|].
  set (k := 3.14159265359 / 180) in *. unfold dot, on_sphere; cbn. rewrite Rmult_0_l, cos_0, sin_0.
  pose proof (sc (lon * k)) as S.
  replace (cos (lon * k) * 1 * (cos (lon * k) * cos (x * k)) + sin (lon * k) * 1 * (sin (lon * k) * cos (x * k)) + 0 * sin (x * k))
    with ((sin (lon * k) * sin (lon * k) + cos (lon * k) * cos (lon * k)) * cos (x * k)) by ring.
  rewrite S. ring.
Qed.
Example C65_error_example : coordinates 49 8.4 /\ coordinates (-33.9) 151.2.
Proof. unfold coordinates. lra. Qed.

(** ** C66 *)
(** The constructor, with its vectorised loop, builds the tree of C34 for the
    distances of C65, and never fails if no longitude is missing. *)
Theorem C66_constructor nth_element latitude longitude :
  (length latitude <= length longitude)%nat ->
  geo_position_to_node nth_element latitude longitude
  = geo_build r_ops compute_distance nth_element (zip latitude longitude).
Proof. apply geo_position_to_node_ok. Qed.
Print Assumptions C66_constructor.

(** Queries for the nearest position with respect to the great circle distance. *)
Theorem C66_nearest_partial nth_element latitude longitude (q : R * R) (radius : R) :
  length latitude = length longitude -> nth_element_ok r_ops nth_element ->
  exists g r, geo_position_to_node nth_element latitude longitude = Some g /\
    find_nearest r_ops compute_distance g q radius = Some r /\
    match r.1 with
    | Some i => exists a b, latitude !! i = Some a /\ longitude !! i = Some b /\
        great_circle 3.14159265359 6371000.785 q.1 q.2 a b r.2 /\ r.2 <= radius /\
        forall j a' b' d, latitude !! j = Some a' -> longitude !! j = Some b' ->
          great_circle 3.14159265359 6371000.785 q.1 q.2 a' b' d -> r.2 <= d
    | None => forall j a' b' d, latitude !! j = Some a' -> longitude !! j = Some b' ->
          great_circle 3.14159265359 6371000.785 q.1 q.2 a' b' d -> radius <= d
    end.
Proof.
  intros Hl Hn. rewrite C66_constructor by lia.
  destruct (C34_nearest r_ops compute_distance nth_element (zip latitude longitude) q radius r_laws geo_metric Hn)
    as (g & r & Eg & Er & Hr & _).
  exists g, r. split; [done|]. split; [done|].
  assert (Hat : forall j a' b' d, latitude !! j = Some a' -> longitude !! j = Some b' ->
    great_circle 3.14159265359 6371000.785 q.1 q.2 a' b' d ->
    at_distance compute_distance (zip latitude longitude) q j d).
  { intros j a' b' d Ha Hb (t & -> & Ht). exists (a', b'). split.
    - rewrite lookup_zip_with, Ha. cbn. by rewrite Hb.
    - unfold compute_distance. cbn [fst snd]. destruct (C65_great_circle q.1 q.2 a' b') as (s & -> & Hs).
      f_equal. eapply angle_unique; [exact Ht|exact Hs]. }
  destruct (r.1) as [i|] eqn:Ei.
  - unfold nearest_spec in Hr. rewrite Ei in Hr. destruct Hr as ((p & Hp & Ed) & Hrad & Hmin).
    rewrite lookup_zip_with in Hp. destruct (latitude !! i) as [a|] eqn:Ea; [|done]. cbn in Hp.
    destruct (longitude !! i) as [b|] eqn:Eb; [|done]. injection Hp as <-.
    exists a, b. split; [done|]. split; [done|]. split; [rewrite Ed; apply C65_great_circle|].
    split; [by apply r_ops_le|]. intros j a' b' d Ha Hb Hd. apply r_ops_le. apply (Hmin j). by eapply Hat.
  - destruct Hr as [_ Hr]. intros j a' b' d Ha Hb Hd. apply r_ops_le. apply (Hr j). by eapply Hat.
Qed.
Print Assumptions C66_nearest_partial.

(** All positions within a radius: exactly those, each once, with their distances. *)
Theorem C66_find_all nth_element latitude longitude (q : R * R) (radius : R) :
  length latitude = length longitude -> nth_element_ok r_ops nth_element ->
  exists g res, geo_position_to_node nth_element latitude longitude = Some g /\
    find_all r_ops compute_distance g q radius = Some res /\ NoDup res.*1 /\
    forall i d, (i, d) ∈ res <-> exists a b, latitude !! i = Some a /\ longitude !! i = Some b /\
      great_circle 3.14159265359 6371000.785 q.1 q.2 a b d /\ d <= radius.
Proof.
  intros Hl Hn. rewrite C66_constructor by lia.
  destruct (C34_find_all r_ops compute_distance nth_element (zip latitude longitude) q radius r_laws geo_metric Hn)
    as (g & res & Eg & Er & Hnd & Hr).
  exists g, res. split_and!; [done..|]. intros i d. rewrite Hr, r_ops_le. split.
  - intros ((p & Hp & ->) & Hd). rewrite lookup_zip_with in Hp. destruct (latitude !! i) as [a|] eqn:Ea; [|done]. cbn in Hp.
    destruct (longitude !! i) as [b|] eqn:Eb; [|done]. injection Hp as <-.
    exists a, b. split_and!; [done..|apply C65_great_circle|done].
  - intros (a & b & Ha & Hb & (t & -> & Ht) & Hd). split; [|done]. exists (a, b). split.
    + rewrite lookup_zip_with, Ha. cbn. by rewrite Hb.
    + unfold compute_distance. cbn [fst snd]. destruct (C65_great_circle q.1 q.2 a b) as (s & -> & Hs).
      f_equal. eapply angle_unique; [exact Ht|exact Hs].
Qed.
Print Assumptions C66_find_all.

(** With fewer longitudes than latitudes the constructor reads beyond the end. *)
Theorem C66_lengths_refuted : exists latitude longitude, latitude <> [] /\
  forall nth_element, geo_position_to_node nth_element latitude longitude = None.
Proof.
  exists [49; 50], [8]. split; [done|]. intros nth. unfold geo_position_to_node.
  by rewrite fill_loop_None by (cbn; lia).
Qed.
Print Assumptions C66_lengths_refuted.

(** A function with the contract of [std::nth_element] exists: sort the range by insertion. *)
Fixpoint r_insert (x : point_data (R * R) R) (l : list (point_data (R * R) R)) : list (point_data (R * R) R) :=
  match l with
  | [] => [x]
  | y :: l => if Rle_dec (pd_dist x) (pd_dist y) then x :: y :: l else y :: r_insert x l
  end.
Definition r_nth (_ : nat) (l : list (point_data (R * R) R)) : list (point_data (R * R) R) := foldr r_insert [] l.
Definition r_pd_le (x y : point_data (R * R) R) : Prop := pd_dist x <= pd_dist y.
Lemma r_insert_perm x l : Permutation (r_insert x l) (x :: l).
Proof.
  induction l as [|y l IH]; cbn; [done|]. destruct (Rle_dec _ _); [done|].
  rewrite IH. constructor.
Qed.
Lemma r_insert_sorted x l : StronglySorted r_pd_le l -> StronglySorted r_pd_le (r_insert x l).
Proof.
  induction l as [|y l IH]; intros Hs; cbn; [by repeat constructor|].
  inversion Hs as [|? ? Hs' Hall]; subst. destruct (Rle_dec _ _) as [Hle|Hle].
  - constructor; [done|]. constructor; [done|]. eapply Forall_impl; [exact Hall|]. unfold r_pd_le. intros z Hz. lra.
  - constructor; [by apply IH|]. apply Forall_forall. intros z Hz. rewrite r_insert_perm in Hz.
    apply elem_of_cons in Hz as [-> |Hz]; [unfold r_pd_le; lra|]. rewrite Forall_forall in Hall. by apply Hall.
Qed.
Example C66_nth_element : nth_element_ok r_ops r_nth.
Proof.
  intros k l Hk. split.
  - clear Hk. induction l as [|x l IH]; cbn; [done|]. rewrite r_insert_perm. by constructor.
  - intros i j x y Hx Hy Hij. apply r_ops_le. destruct (decide (i = j)) as [-> |Hne]; [simplify_eq; lra|].
    assert (Hs : StronglySorted r_pd_le (r_nth k l)).
    { clear. induction l as [|x l IH]; cbn; [constructor|]. by apply r_insert_sorted. }
    assert (Hlt : (i < j)%nat) by lia.
    exact (StronglySorted_lookup r_pd_le (r_nth k l) i j x y Hs Hx Hy Hlt).
Qed.

(** ** C67 *)
(** Files with the coordinates: [encode] gives the four bytes of a number, [value] reads them. *)
Definition float_file (encode : R -> list N) (l : list R) : list N := concat (encode <$> l).
Theorem C67_weights_partial encode value ok fo tail head latitude longitude :
  image 4 encode value ok -> Forall ok latitude -> Forall ok longitude ->
  csr (length fo - 1) fo head -> tails_ok fo tail head -> fits32 (length fo) -> fits32 (length head) ->
  (length fo - 1 <= length latitude)%nat -> (length fo - 1 <= length longitude)%nat ->
  exists w, compute_geographic_weights value (id_file fo) (id_file head) (float_file encode latitude) (float_file encode longitude)
      = Some (Ret (word_file w)) /\
    weighs_meters 6371000.785 tail head latitude longitude w /\ Forall (fun k => k < 20100001)%N w.
Proof.
  intros Hi H1 H2 Hc Ht Hf Hh L1 L2. destruct (csr_fits _ _ Hc Hf Hh) as [F1 F2].
  destruct (geographic_weights_spec fo tail head latitude longitude Hc Ht L1 L2) as (w & E & Hl & Hw).
  exists w. split_and!.
  - unfold compute_geographic_weights. rewrite (load_id_file fo F1), (load_id_file head F2). cbn [andthen].
    unfold load_floats, float_file.
    pose proof (C40_vector 4 encode value ok latitude Hi H1) as E1. pose proof (C40_vector 4 encode value ok longitude Hi H2) as E2.
    unfold save_vector in E1, E2. rewrite E1, E2. cbn [andthen].
    rewrite (check_valid _ _ Hc). cbn [andthen]. by rewrite E, bind_S.
  - split; [done|]. intros e x y k a b c d Hx Hy Hk Ha Hb Hcy Hd.
    destruct (Hw e) as (x' & y' & a' & b' & c' & d' & k' & ? & ? & ? & ? & ? & ? & ? & Ek); [by eapply lookup_lt_Some|].
    simplify_eq. destruct (meters_spec a b c d) as (k' & Ek' & Hm & _). simplify_eq.
    exists (geo_dist a b c d). split; [apply C65_great_circle|done].
  - apply Forall_forall. intros k Hk. apply elem_of_list_lookup in Hk as (e & Hk).
    destruct (Hw e) as (x' & y' & a' & b' & c' & d' & k' & _ & _ & Hk' & _ & _ & _ & _ & Ek); [rewrite <- Hl; by eapply lookup_lt_Some|].
    simplify_eq. destruct (meters_spec a' b' c' d') as (k' & Ek' & _ & Hb). by simplify_eq.
Qed.
Print Assumptions C67_weights_partial.

(** With such weights no walk is much shorter than the great circle between its
    ends: one meter is lost per arc. *)
Theorem C67_walks tail head latitude longitude w s p t a b c d m :
  weighs_meters 6371000.785 tail head latitude longitude w ->
  (forall y, y ∈ head -> is_Some (latitude !! y) /\ is_Some (longitude !! y)) ->
  awalk tail head s p t ->
  latitude !! s = Some a -> longitude !! s = Some b -> latitude !! t = Some c -> longitude !! t = Some d ->
  great_circle 3.14159265359 6371000.785 a b c d m ->
  m <= IZR (Z.of_N (total w p)) + INR (length p).
Proof.
  intros Hw Hco Hp Ha Hb Hc Hd (q & -> & Hq). destruct (C65_great_circle a b c d) as (q' & E & Hq').
  rewrite (angle_unique _ _ _ _ Hq Hq'), <- E.
  eapply (walk_meters tail head latitude longitude w Hw); try done.
  intros e x y _ Hy. apply Hco. by eapply elem_of_list_lookup_2.
Qed.
Print Assumptions C67_walks.

(** Files that do not describe a graph are refused. *)
Theorem C67_rejects encode value ok fo head latitude longitude :
  image 4 encode value ok -> Forall ok latitude -> Forall ok longitude ->
  fo <> [] -> Forall fits32 fo -> Forall fits32 head -> ~ csr (length fo - 1) fo head ->
  compute_geographic_weights value (id_file fo) (id_file head) (float_file encode latitude) (float_file encode longitude) = Some Throw.
Proof.
  intros Hi H1 H2 Hne F1 F2 Hc. unfold compute_geographic_weights. rewrite (load_id_file fo F1), (load_id_file head F2). cbn [andthen].
  unfold load_floats, float_file.
  pose proof (C40_vector 4 encode value ok latitude Hi H1) as E1. pose proof (C40_vector 4 encode value ok longitude Hi H2) as E2.
  unfold save_vector in E1, E2. rewrite E1, E2. cbn [andthen]. by rewrite (check_invalid _ _ Hne Hc).
Qed.
Print Assumptions C67_rejects.

(** Whole degrees as a format of four bytes, for the examples. *)
Definition ex_encode (x : R) : list N := le_bytes 4 (Z.to_N (Int_part x)).
Definition ex_value (l : list N) : R := IZR (Z.of_N (le_word l)).
Definition ex_ok (x : R) : Prop := exists k, x = IZR (Z.of_N k) /\ (k < 256 ^ N.of_nat 4)%N.
Lemma ex_image : image 4 ex_encode ex_value ex_ok.
Proof.
  split; [lia|]. intros x (k & -> & Hk). unfold ex_encode, ex_value.
  assert (Ei : Int_part (IZR (Z.of_N k)) = Z.of_N k).
  { destruct (base_Int_part (IZR (Z.of_N k))) as [B1 B2]. apply le_IZR in B1.
    assert (Z.of_N k - 1 < Int_part (IZR (Z.of_N k)))%Z by (apply lt_IZR; rewrite minus_IZR; lra). lia. }
  rewrite Ei, N2Z.id. split; [apply le_bytes_length|]. by rewrite le_word_bytes.
Qed.

(** The numbers of coordinates are not compared with the number of nodes: with too few of them the program
    reads beyond the end of an array. *)
Theorem C67_short_refuted : exists fo head latitude longitude,
  csr (length fo - 1) fo head /\ Forall ex_ok latitude /\ Forall ex_ok longitude /\
  compute_geographic_weights ex_value (id_file fo) (id_file head) (float_file ex_encode latitude) (float_file ex_encode longitude) = None.
Proof.
  exists [0; 1; 1]%nat, [1%nat], [49], [8; 9].
  assert (Hc : csr (length [0; 1; 1]%nat - 1) [0; 1; 1]%nat [1%nat]).
  { destruct (check_graph_spec [0; 1; 1]%nat [1%nat]) as (r & E & H); [done|]. apply H. by injection E as <-. }
  assert (Hok : forall k : N, (k < 256 ^ N.of_nat 4)%N -> ex_ok (IZR (Z.of_N k))) by (intros k Hk; by exists k).
  assert (O1 : Forall ex_ok [49]) by (constructor; [by apply (Hok 49%N)|constructor]).
  assert (O2 : Forall ex_ok [8; 9]) by (constructor; [by apply (Hok 8%N)|constructor; [by apply (Hok 9%N)|constructor]]).
  split; [done|]. split; [done|]. split; [done|].
  unfold compute_geographic_weights. rewrite !load_id_file by (repeat constructor). cbn [andthen].
  unfold load_floats, float_file.
  pose proof (C40_vector 4 ex_encode ex_value ex_ok [49] ex_image O1) as E1. pose proof (C40_vector 4 ex_encode ex_value ex_ok [8; 9] ex_image O2) as E2.
  unfold save_vector in E1, E2. rewrite E1, E2. cbn [andthen]. by rewrite (check_valid _ _ Hc).
Qed.
Print Assumptions C67_short_refuted.

(** Two nodes on the same meridian and the arcs between them. *)
Example C67_example : exists fo tail head latitude longitude,
  csr (length fo - 1) fo head /\ tails_ok fo tail head /\ fits32 (length fo) /\ fits32 (length head) /\
  (length fo - 1 <= length latitude)%nat /\ (length fo - 1 <= length longitude)%nat /\
  Forall ex_ok latitude /\ Forall ex_ok longitude /\ awalk tail head 0%nat [0; 1]%nat 0%nat.
Proof.
  exists [0; 1; 2]%nat, [0; 1]%nat, [1; 0]%nat, [0; 49], [8; 8].
  assert (Hok : forall k : N, (k < 256 ^ N.of_nat 4)%N -> ex_ok (IZR (Z.of_N k))) by (intros k Hk; by exists k).
  split_and!; try done.
  - destruct (check_graph_spec [0; 1; 2]%nat [1; 0]%nat) as (r & E & H); [done|]. apply H. by injection E as <-.
  - split; [done|]. intros x a (lo & hi & Hlo & Hhi & Ha).
    destruct x as [|[|x]]; cbn in Hlo, Hhi; [| |done]; simplify_eq; [by replace a with 0%nat by lia|by replace a with 1%nat by lia].
  - constructor; [by apply (Hok 0%N)|constructor; [by apply (Hok 49%N)|constructor]].
  - constructor; [by apply (Hok 8%N)|constructor; [by apply (Hok 8%N)|constructor]].
  - econstructor; [done..|]. econstructor; [done..|]. constructor.
Qed.
