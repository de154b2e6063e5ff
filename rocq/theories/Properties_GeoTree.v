(** * C34: the nearest-neighbour index *)
From stdpp Require Import list numbers sorting.
From Verif Require Import Base GeoTreeModel GeoTreeSpec GeoTreeProofs.

(** ** Instances for the examples: integers on a line *)
Definition z_ops : dist_ops := DistOps Z Z.leb Z.add Z.sub.
Definition z_dist (x y : Z) : Z := Z.abs (x - y).

Lemma z_laws : dist_laws z_ops.
Proof. split; cbn; intros *; rewrite ?Z.leb_le; lia. Qed.

Lemma z_metric : @metric Z z_ops z_dist.
Proof. split; unfold z_dist; cbn; intros *; rewrite ?Z.leb_le; lia. Qed.

(** Sorting the range completely is a valid [std::nth_element]. *)
Definition pd_le (x y : point_data Z Z) : Prop := (pd_dist x <= pd_dist y)%Z.
Global Instance pd_le_dec x y : Decision (pd_le x y).
Proof. unfold pd_le. apply _. Defined.
Global Instance pd_le_total : Total pd_le.
Proof. intros x y. unfold pd_le. lia. Qed.
Global Instance pd_le_trans : Transitive pd_le.
Proof. intros x y z. unfold pd_le. lia. Qed.

Definition z_nth (k : nat) (l : list (point_data Z Z)) : list (point_data Z Z) :=
  merge_sort pd_le l.

Lemma StronglySorted_lookup {A} (R : A -> A -> Prop) l i j x y :
  StronglySorted R l -> l !! i = Some x -> l !! j = Some y -> i < j -> R x y.
Proof.
  intros Hs. revert i j. induction Hs as [|a l Hs IH Hall]; intros i j Hx Hy Hij; [done|].
  destruct j as [|j]; [lia|]. cbn in Hy. destruct i as [|i]; cbn in Hx.
  - injection Hx as ->. rewrite Forall_forall in Hall. apply Hall.
    by eapply elem_of_list_lookup_2.
  - eapply IH; [done|done|lia].
Qed.

Lemma z_nth_ok : nth_element_ok z_ops z_nth.
Proof.
  intros k l Hk. split; [apply merge_sort_Permutation|].
  intros i j x y Hx Hy Hij. cbn. apply Z.leb_le.
  destruct (decide (i = j)) as [->|Hne]; [simplify_eq; lia|].
  eapply (StronglySorted_lookup pd_le); [|exact Hx|exact Hy|lia].
  apply StronglySorted_merge_sort; apply _.
Qed.

(** ** Nearest neighbour

    The query never fails.  If it returns a point, that point is within the
    radius and no point is closer.  If it returns [invalid_id], no point is
    strictly closer than the radius.  Hence the promised result is returned
    whenever no point lies at exactly the radius. *)
Theorem C34_nearest {Pos : Type} (o : dist_ops) (dist : Pos -> Pos -> dD o) nth_element
    (ps : list Pos) (q : Pos) (radius : dD o) :
  dist_laws o -> metric o dist -> nth_element_ok o nth_element ->
  exists g r, geo_build o dist nth_element ps = Some g /\
    find_nearest o dist g q radius = Some r /\
    match r.1 with
    | Some i => nearest_spec o dist ps q radius r
    | None => r.2 = radius /\
              forall j d, at_distance dist ps q j d -> dle o radius d = true
    end /\
    ((forall j d, at_distance dist ps q j d -> dle o radius d = true -> dle o d radius = false) ->
     nearest_spec o dist ps q radius r).
Proof.
  intros Ho Hm Hnth. destruct (build_ok o dist nth_element Ho Hm Hnth ps) as (g & E & Hl & Hp & Hv).
  set (l := zip (point_position g) (point_id g)) in *.
  assert (El : l.*1 = point_position g) by (apply fst_zip; lia).
  assert (Hll : length l = length (point_position g)) by (rewrite <- El; by rewrite fmap_length).
  destruct (nn_ok o dist Ho Hm g q (S (length l)) 0 l (None, radius)) as (r & Er & P1 & P2 & P3).
  { lia. } { by apply seg_zip. } { by rewrite El. }
  assert (Hin : forall j p, ps !! j = Some p <-> (p, j) ∈ l).
  { intros j p. rewrite Hp, elem_of_lookup_imap. split.
    - intros H. by exists j, p.
    - intros (i & x & [= -> ->] & H). done. }
  assert (Hmin : forall j d, at_distance dist ps q j d -> dle o r.2 d = true).
  { intros j d (p & Hj & ->). apply (P3 (p, j)). by apply Hin. }
  assert (Hmain : match r.1 with
    | Some i => nearest_spec o dist ps q radius r
    | None => r.2 = radius /\
              forall j d, at_distance dist ps q j d -> dle o radius d = true end).
  { destruct P2 as [->|([p i] & Hx & ->)]; cbn [fst snd] in *.
    - split; [done|exact Hmin].
    - unfold nearest_spec. cbn [fst snd]. split; [|done].
      exists p. split; [by apply Hin|done]. }
  exists g, r. split; [done|]. split.
  { unfold find_nearest. by rewrite <- Hll. }
  split; [done|]. intros Hne. unfold nearest_spec in *.
  destruct (r.1) eqn:Eid; [done|]. destruct Hmain as [_ Hmain].
  intros j d Hj. apply (Hne j d Hj). by apply (Hmain j d).
Qed.
Print Assumptions C34_nearest.

(** ** All points within the radius: exactly those, each once. *)
Theorem C34_find_all {Pos : Type} (o : dist_ops) (dist : Pos -> Pos -> dD o) nth_element
    (ps : list Pos) (q : Pos) (radius : dD o) :
  dist_laws o -> metric o dist -> nth_element_ok o nth_element ->
  exists g res, geo_build o dist nth_element ps = Some g /\
    find_all o dist g q radius = Some res /\
    NoDup res.*1 /\
    forall i d, (i, d) ∈ res <-> at_distance dist ps q i d /\ dle o d radius = true.
Proof.
  intros Ho Hm Hnth. destruct (build_ok o dist nth_element Ho Hm Hnth ps) as (g & E & Hl & Hp & Hv).
  set (l := zip (point_position g) (point_id g)) in *.
  assert (El : l.*1 = point_position g) by (apply fst_zip; lia).
  assert (Hll : length l = length (point_position g)) by (rewrite <- El; by rewrite fmap_length).
  exists g, (omap (hit o dist q radius) l). split; [done|]. split.
  { unfold find_all. rewrite <- Hll.
    apply (fa_ok o dist Ho Hm g q radius (S (length l)) 0 l []); [lia|by apply seg_zip|by rewrite El]. }
  assert (Hin : forall j p, ps !! j = Some p <-> (p, j) ∈ l).
  { intros j p. rewrite Hp, elem_of_lookup_imap. split.
    - intros H. by exists j, p.
    - intros (i & x & [= -> ->] & H). done. }
  split.
  - assert (Hnd : NoDup l.*2).
    { rewrite Hp. clear. rewrite fmap_imap.
      assert (Es : imap (fun i (_ : Pos) => i) ps = seq 0 (length ps)).
      { apply list_eq. intros i. rewrite list_lookup_imap.
        destruct (ps !! i) eqn:Ei; cbn.
        - symmetry. apply lookup_seq. split; [lia|]. by apply lookup_lt_Some in Ei.
        - symmetry. apply lookup_seq_ge. by apply lookup_ge_None in Ei. }
      rewrite (imap_ext _ (fun i _ => i)) by done. rewrite Es. apply NoDup_seq. }
    clear -Hnd. induction l as [|x l IH]; [constructor|].
    cbn in Hnd. apply NoDup_cons in Hnd as [Hx Hnd]. specialize (IH Hnd).
    change (omap (hit o dist q radius) (x :: l)) with
      (match hit o dist q radius x with Some y => y :: omap (hit o dist q radius) l
       | None => omap (hit o dist q radius) l end).
    destruct (hit o dist q radius x) as [y|] eqn:Ey; [|done].
    cbn. constructor; [|done]. intros Hc. apply Hx.
    apply elem_of_list_fmap in Hc as (z & Ez & Hz).
    apply elem_of_list_omap in Hz as (w & Hw & Ew).
    apply elem_of_list_fmap. exists w. split; [|done].
    unfold hit in *. repeat case_match; simplify_eq. cbn in Ez. done.
  - intros i d. rewrite elem_of_list_omap. split.
    + intros ([p j] & Hj & Eh). unfold hit in Eh. cbn [fst snd] in Eh.
      case_match eqn:Hle; [|done]. injection Eh as -> <-. split; [|done].
      exists p. split; [by apply Hin|done].
    + intros ((p & Hi & ->) & Hle). exists (p, i). split; [by apply Hin|].
      unfold hit. cbn [fst snd]. by rewrite Hle.
Qed.
Print Assumptions C34_find_all.

(** ** The property as stated fails at equality

    [nearest_neighbor_recursion] accepts a point at exactly the current distance
    in a leaf ([<=], line 144) but prunes a subtree when its lower bound equals
    the current distance (strict [<], lines 167 and 171).  Nine points on a line;
    the query at 6 with radius 4 has the point at 10 at exactly distance 4, yet
    the query returns [invalid_id]. *)
Definition boundary_points : list Z := [0; 1; -1; 1; 10; 20; 20; 20; 20]%Z.

Theorem C34_nearest_refuted :
  exists (ps : list Z) (q radius : Z) g r,
    dist_laws z_ops /\ @metric Z z_ops z_dist /\ nth_element_ok z_ops z_nth /\
    geo_build z_ops z_dist z_nth ps = Some g /\
    find_nearest z_ops z_dist g q radius = Some r /\
    ~ nearest_spec z_ops z_dist ps q radius r.
Proof.
  exists boundary_points, 6%Z, 4%Z. eexists _, _.
  split; [apply z_laws|]. split; [apply z_metric|]. split; [apply z_nth_ok|].
  split; [vm_compute; reflexivity|]. split; [vm_compute; reflexivity|].
  intros H. unfold nearest_spec in H. cbn [fst] in H.
  assert (Hc : dle z_ops 4%Z 4%Z = false); [|done].
  apply (H 4). by exists 10%Z.
Qed.
Print Assumptions C34_nearest_refuted.

(** ** Examples *)
Definition line_points : list Z :=
  [7; 100; 3; 55; 42; 18; 77; 23; 64; 91; 12; 36; 49; 5; 88; 30; 61; 70; 15; 95]%Z.

(** The hypotheses are met by twenty points (a tree of depth three), and both
    queries give the expected answers. *)
Example C34_nearest_example :
  (g ← geo_build z_ops z_dist z_nth line_points;
   r1 ← find_nearest z_ops z_dist g 50%Z 10%Z;
   r2 ← find_nearest z_ops z_dist g 82%Z 4%Z;
   Some (r1, r2)) = Some ((Some 12, 1%Z), (None, 4%Z)).
Proof. by vm_compute. Qed.

(** The guard of the last part of [C34_nearest] holds for both queries. *)
Example C34_nearest_example_guard :
  (forall j d, at_distance z_dist line_points 50%Z j d -> dle z_ops 10%Z d = true ->
    dle z_ops d 10%Z = false) /\
  (forall j d, at_distance z_dist line_points 82%Z j d -> dle z_ops 4%Z d = true ->
    dle z_ops d 4%Z = false).
Proof.
  assert (H : Forall (fun p => z_dist 50 p <> 10%Z /\ z_dist 82 p <> 4%Z) line_points).
  { apply (bool_decide_unpack _). by vm_compute. }
  rewrite Forall_forall in H.
  split; intros j d (p & Hp & ->) Hle; apply elem_of_list_lookup_2 in Hp;
    destruct (H p Hp); cbn in *; apply Z.leb_le in Hle; apply Z.leb_gt; lia.
Qed.

(** Point 16 (position 61) is at distance 11, point 4 (42) at 8, and so on. *)
Example C34_find_all_example :
  (g ← geo_build z_ops z_dist z_nth line_points;
   find_all z_ops z_dist g 50%Z 12%Z) = Some [(4, 8%Z); (12, 1%Z); (3, 5%Z); (16, 11%Z)].
Proof. by vm_compute. Qed.

(** A point at exactly the radius is reported by [find_all], also where the
    nearest-neighbour query misses it. *)
Example C34_find_all_boundary :
  (g ← geo_build z_ops z_dist z_nth boundary_points;
   find_all z_ops z_dist g 6%Z 4%Z) = Some [(4, 4%Z)].
Proof. by vm_compute. Qed.
