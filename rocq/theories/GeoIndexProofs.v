(** * Proofs about the vectorised construction of the index (C66) *)
From stdpp Require Import list numbers.
From Coq Require Import Reals Lra.
Local Notation R := Rdefinitions.R.
From Verif Require Import Base GeoTreeModel GeoTreeSpec GeoDistModel GeoDistSpec GeoDistProofs.
Local Close Scope R_scope.
Local Open Scope nat_scope.

Local Notation PD := (point_data position R).

(** Writing the distance to [m] into entry [k]. *)
Definition upd (m : position) (p : PD) : PD :=
  PointData (pd_pos p) (pd_id p) (compute_distance m (pd_pos p)).
Definition upd_at (m : position) (k : nat) (d : list PD) : option (list PD) :=
  p ← d !! k; wr d k (upd m p).

Lemma upd_at_Some m k d p : d !! k = Some p -> upd_at m k d = Some (<[k := upd m p]> d).
Proof.
  intros H. unfold upd_at. rewrite H, bind_S. apply wr_Some. by apply lookup_lt_Some in H.
Qed.

Lemma upd_at_None m k d : d !! k = None -> upd_at m k d = None.
Proof. intros H. unfold upd_at. by rewrite H. Qed.

Lemma upd_pos m k (d : list PD) p : d !! k = Some p -> pd_pos <$> <[k := upd m p]> d = pd_pos <$> d.
Proof.
  intros H. rewrite list_fmap_insert. cbn [upd pd_pos].
  apply list_insert_id. by rewrite list_lookup_fmap, H.
Qed.

Lemma for_n_app {S} (body : nat -> S -> option S) a b i s :
  for_n (a + b) i body s = (s' ← for_n a i body s; for_n b (i + a) body s').
Proof.
  revert i s. induction a as [|a IH]; intros i s; cbn [for_n Nat.add].
  - by rewrite Nat.add_0_r.
  - destruct (body i s) as [s'|]; [|done]. cbn [mbind option_bind].
    rewrite IH. by replace (i + Datatypes.S a) with (Datatypes.S i + a) by lia.
Qed.

(** The loop that is commented out, lines 44-46. *)
Lemma set_distance_loop mid m n i (d : list PD) :
  (pd_pos <$> d) !! mid = Some m ->
  for_n n i (set_distance r_ops compute_distance mid) d = for_n n i (upd_at m) d.
Proof.
  revert i d. induction n as [|n IH]; intros i d Hm; [done|]. cbn [for_n].
  rewrite list_lookup_fmap in Hm. destruct (d !! mid) as [pm|] eqn:Em; [|done].
  injection Hm as Hm.
  assert (E : set_distance r_ops compute_distance mid i d = upd_at m i d).
  { unfold set_distance, upd_at. change (dD r_ops) with R. rewrite Em, bind_S. by rewrite <- Hm. }
  rewrite E. destruct (d !! i) as [p|] eqn:Ei.
  - rewrite (upd_at_Some m i d p Ei), bind_S. apply IH.
    rewrite upd_pos by done. rewrite list_lookup_fmap, Em. cbn. by rewrite Hm.
  - by rewrite upd_at_None.
Qed.

Lemma upd_loop_None m n i d : 0 < n -> length d < i + n -> for_n n i (upd_at m) d = None.
Proof.
  revert i d. induction n as [|n IH]; intros i d Hn Hl; [lia|]. cbn [for_n].
  destruct (d !! i) as [p|] eqn:Ei.
  - rewrite (upd_at_Some m i d p Ei), bind_S. pose proof (lookup_lt_Some _ _ _ Ei).
    apply IH; [lia|]. rewrite insert_length. lia.
  - by rewrite upd_at_None.
Qed.

(** Copying the positions of a block. *)
Lemma copy_block (d : list PD) i n : i + n <= length d ->
  mapM (fun j => p ← d !! (i + j); Some (pd_pos p)) (seq 0 n)
  = Some (take n (drop i (pd_pos <$> d))).
Proof.
  intros H. apply mapM_Some. apply Forall2_same_length_lookup. split.
  { rewrite seq_length, take_length, drop_length, fmap_length. lia. }
  intros k j p Hj Hp. apply lookup_seq in Hj as [-> Hk]. rewrite Nat.add_0_l.
  rewrite lookup_take in Hp by done. rewrite lookup_drop, list_lookup_fmap in Hp.
  destruct (d !! (i + k)); [|done]. cbn in Hp. injection Hp as <-. done.
Qed.

Lemma copy_block_None (d : list PD) i n : 0 < n -> length d < i + n ->
  mapM (fun j => p ← d !! (i + j); Some (pd_pos p)) (seq 0 n) = None.
Proof.
  intros Hn H. destruct (mapM _ _) as [r|] eqn:E; [|done]. exfalso.
  apply mapM_Some in E. destruct (Forall2_lookup_l _ _ _ (n - 1) (n - 1) E) as (p & _ & Hp).
  { apply lookup_seq. lia. }
  rewrite lookup_ge_None_2 in Hp by lia. done.
Qed.

Lemma block_loop m i n (b : list position) : forall k j (d : list PD), j + k = n ->
  take n (drop i (pd_pos <$> d)) = take n b -> i + n <= length d -> n <= length b ->
  for_n k j (fun j d =>
    a ← map (lane (to_radian m.1) (to_radian m.2)) b !! j;
    p ← d !! (i + j);
    wr d (i + j) (PointData (pd_pos p) (pd_id p) (lane_distance a))) d
  = for_n k (i + j) (upd_at m) d.
Proof.
  induction k as [|k IH]; intros j d Hj Hb Hl Hlb; [done|]. cbn [for_n].
  destruct (lookup_lt_is_Some_2 d (i + j)) as [p Hp]; [lia|].
  assert (Hbj : b !! j = Some (pd_pos p)).
  { rewrite <- (lookup_take b n) by lia. rewrite <- Hb. rewrite lookup_take by lia.
    rewrite lookup_drop, list_lookup_fmap, Hp. done. }
  change (map (lane (to_radian m.1) (to_radian m.2)) b) with
    (lane (to_radian m.1) (to_radian m.2) <$> b).
  rewrite list_lookup_fmap, Hbj. cbn [fmap option_fmap option_map]. rewrite bind_S.
  rewrite Hp, bind_S, wr_Some by (by apply lookup_lt_Some in Hp). rewrite bind_S.
  rewrite (upd_at_Some m _ _ p Hp), bind_S. rewrite lane_distance_ok.
  change (PointData (pd_pos p) (pd_id p) (compute_distance m (pd_pos p))) with (upd m p).
  replace (Datatypes.S (i + j)) with (i + Datatypes.S j) by lia.
  apply IH; [lia| |by rewrite insert_length|done]. by rewrite upd_pos.
Qed.

Lemma vector_block_ok m e i (d : list PD) : i < e ->
  vector_block e (to_radian m.1) (to_radian m.2) i d
  = for_n (min (e - i) vector_width) i (upd_at m) d.
Proof.
  intros Hi. unfold vector_block.
  assert (En : (if decide (e - i < vector_width) then e - i else vector_width)
               = min (e - i) vector_width) by (case_decide; lia).
  rewrite En. set (n := min (e - i) vector_width).
  assert (Hn : 0 < n <= vector_width) by (unfold n, vector_width; lia).
  destruct (decide (i + n <= length d)) as [Hl|Hl].
  - rewrite copy_block, bind_S by done. unfold for_range. rewrite Nat.sub_0_r.
    set (b := take n (drop i (pd_pos <$> d))).
    assert (Hb : length b = n).
    { unfold b. rewrite take_length, drop_length, fmap_length. lia. }
    rewrite (block_loop m i n _ n 0 d); [by rewrite Nat.add_0_r|lia| |done|].
    + fold b. rewrite take_app_alt by done. done.
    + rewrite app_length. change (n <= length b + length (replicate (vector_width - n) (0%R, 0%R))).
      rewrite Hb. lia.
  - rewrite copy_block_None by lia. by rewrite upd_loop_None by lia.
Qed.

Lemma vector_blocks_ok m e fuel : forall i (d : list PD), e - i < fuel ->
  vector_blocks fuel e (to_radian m.1) (to_radian m.2) i d = for_n (e - i) i (upd_at m) d.
Proof.
  induction fuel as [|fuel IH]; intros i d Hf; [lia|]. cbn [vector_blocks].
  case_decide as Hi.
  - rewrite vector_block_ok by done.
    replace (e - i) with (min (e - i) vector_width + (e - (i + vector_width))) at 2 by lia.
    rewrite for_n_app. destruct (for_n _ _ _ d) as [d'|]; [|done]. cbn [mbind option_bind].
    rewrite IH by (unfold vector_width; lia).
    destruct (decide (e - (i + vector_width) = 0)) as [->|Hne]; [done|].
    by replace (min (e - i) vector_width) with vector_width by lia.
  - by replace (e - i) with 0 by lia.
Qed.

Lemma vector_distances_ok mid e (d : list PD) : mid < e ->
  vector_distances mid e d = for_range mid e (set_distance r_ops compute_distance mid) d.
Proof.
  intros He. unfold vector_distances, for_range. destruct (d !! mid) as [m|] eqn:Em.
  - rewrite bind_S, vector_blocks_ok by lia. symmetry. apply set_distance_loop.
    rewrite list_lookup_fmap. exact (f_equal (fmap pd_pos) Em).
  - destruct (e - mid) as [|n] eqn:En; [lia|]. cbn [for_n].
    assert (E : set_distance r_ops compute_distance mid mid d = None)
      by (unfold set_distance; by destruct (_ !! mid)).
    rewrite E. done.
Qed.

Lemma geo_construct_tree_ok nth fuel : forall d b e,
  geo_construct_tree nth fuel d b e = construct_tree r_ops compute_distance nth fuel d b e.
Proof.
  induction fuel as [|fuel IH]; intros d b e; [done|]. cbn [geo_construct_tree construct_tree].
  case_decide as Hd; [|done]. rewrite IH.
  destruct (construct_tree _ _ _ fuel _ b _) as [d'|]; [|done]. cbn [mbind option_bind].
  rewrite vector_distances_ok.
  - destruct (for_range _ _ _ d'); [|done]. cbn [mbind option_bind]. apply IH.
  - unfold max_points_per_leaf in Hd. apply Nat.add_lt_mono_l with (p := b) in Hd.
    assert ((e - b) / 2 < e - b) by (apply Nat.div_lt; lia). lia.
Qed.

(** ** The constructor *)
Definition initial (ps : list position) : list PD :=
  match ps with
  | [] => []
  | p0 :: _ => imap (fun i p => PointData p i (compute_distance p0 p)) ps
  end.

Lemma initial_length ps : length (initial ps) = length ps.
Proof. destruct ps; [done|]. apply imap_length. Qed.

Lemma initial_lookup ps i p p0 : ps !! 0 = Some p0 -> ps !! i = Some p ->
  initial ps !! i = Some (PointData p i (compute_distance p0 p)).
Proof.
  destruct ps as [|q ps]; [done|]. intros [= ->] Hi. unfold initial.
  rewrite list_lookup_imap, Hi. done.
Qed.

Lemma fill_loop lat lon : length lat <= length lon ->
  for_range 0 (length lat) (fill_point lat lon)
    (replicate (length lat) (PointData (0%R, 0%R) 0 0%R))
  = Some (initial (zip lat lon)).
Proof.
  intros Hl. set (ps := zip lat lon). set (blank := PointData (0%R, 0%R) 0 0%R).
  assert (Hps : length ps = length lat) by (unfold ps; rewrite zip_with_length; lia).
  destruct (for_range_inv (fun i d => d = take i (initial ps) ++ replicate (length lat - i) blank)
    (fill_point lat lon) 0 (length lat) (replicate (length lat) blank)) as (d & E & ->).
  - lia.
  - by rewrite take_0, Nat.sub_0_r.
  - intros i d Hi ->.
    destruct (lookup_lt_is_Some_2 lat i) as [la Hla]; [lia|].
    destruct (lookup_lt_is_Some_2 lon i) as [lo Hlo]; [lia|].
    assert (Hpi : ps !! i = Some (la, lo)) by (unfold ps; rewrite lookup_zip_with, Hla; cbn; by rewrite Hlo).
    destruct (lookup_lt_is_Some_2 ps 0) as [p0 Hp0]; [lia|].
    assert (Hti : length (take i (initial ps)) = i) by (rewrite take_length, initial_length; lia).
    set (pre := take i (initial ps)) in *.
    replace (length lat - i) with (S (length lat - S i)) by lia.
    cbn [replicate]. set (post := replicate (length lat - S i) blank).
    unfold fill_point. rewrite Hla, bind_S, Hlo, bind_S.
    assert (L1 : forall x, (pre ++ x :: post) !! i = Some x).
    { intros x. by rewrite list_lookup_middle. }
    rewrite L1, bind_S. rewrite wr_Some by (by eapply lookup_lt_Some).
    rewrite bind_S.
    assert (I1 : forall x y, <[i := y]> (pre ++ x :: post) = pre ++ y :: post).
    { intros x y. rewrite insert_app_r_alt by lia. by rewrite Hti, Nat.sub_diag. }
    rewrite I1.
    set (x := PointData (la, lo) i (pd_dist blank)).
    assert (E0 : exists q, (pre ++ x :: post) !! 0 = Some q /\ pd_pos q = p0).
    { destruct i as [|i].
      - exists x. split; [apply L1|]. cbn. congruence.
      - exists (PointData p0 0 (compute_distance p0 p0)). split; [|done].
        rewrite lookup_app_l by lia. unfold pre. rewrite lookup_take by lia.
        by apply initial_lookup. }
    destruct E0 as (q & -> & Hq). rewrite bind_S, L1, bind_S.
    rewrite wr_Some by (by eapply lookup_lt_Some).
    rewrite I1. rewrite Hq. cbn [pd_pos pd_id x].
    eexists. split; [done|].
    rewrite (take_S_r _ _ (PointData (la, lo) i (compute_distance p0 (la, lo))))
      by (by apply initial_lookup).
    fold pre. by rewrite <- app_assoc.
  - rewrite E, Nat.sub_diag. cbn [replicate]. rewrite app_nil_r.
    rewrite firstn_all2; [done|]. rewrite initial_length. lia.
Qed.

Lemma fill_loop_None lat lon : length lon < length lat ->
  for_range 0 (length lat) (fill_point lat lon)
    (replicate (length lat) (PointData (0%R, 0%R) 0 0%R)) = None.
Proof.
  intros Hl. unfold for_range. rewrite Nat.sub_0_r.
  replace (length lat) with (length lon + S (length lat - length lon - 1)) at 1 by lia.
  rewrite for_n_app. destruct (for_n _ 0 _ _) as [d|]; [|done]. cbn [mbind option_bind for_n].
  assert (E : fill_point lat lon (0 + length lon) d = None); [|by rewrite E].
  unfold fill_point. destruct (lat !! _); [|done]. cbn [mbind option_bind].
  by rewrite (lookup_ge_None_2 lon) by lia.
Qed.

Lemma geo_position_to_node_ok nth lat lon : length lat <= length lon ->
  geo_position_to_node nth lat lon = geo_build r_ops compute_distance nth (zip lat lon).
Proof.
  intros Hl. unfold geo_position_to_node. rewrite fill_loop, bind_S by done.
  rewrite geo_construct_tree_ok. unfold geo_build.
  replace (length lat) with (length (zip lat lon)) by (rewrite zip_with_length; lia). done.
Qed.
