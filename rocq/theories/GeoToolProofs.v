(** * Proofs about compute_geographic_distance_weights (C67) *)
From Coq Require Import Reals Lra.
From Verif Require Import Base ProtobufModel VectorIoModel GraphSpec PathSpec ChFileModel VerifyModel VerifyProofs DistanceToolModel.
From Verif Require Import Properties_VectorIo GeoTreeModel GeoDistModel GeoDistSpec GeoDistProofs GeoToolModel WalkSpec DistanceToolSpec DistanceToolProofs.
Ltac Zify.zify_post_hook ::= idtac.

Lemma distance_bound a b c d : (0 <= geo_dist a b c d <= 20100000)%R.
Proof.
  pose proof (compute_distance_bounds (a, b) (c, d)) as [H1 H2]. unfold compute_distance in *. cbn [fst snd] in *. split; [done|].
  eapply Rle_trans; [exact H2|]. pose proof pi_below. pose proof radius_pos.
  apply (Rle_trans _ (earth_radius * 3.14159265359)); [apply Rmult_le_compat_l; lra|]. unfold earth_radius. lra.
Qed.
Lemma meters_spec a b c d : exists k, double_to_unsigned (geo_dist a b c d) = Some k /\
  (IZR (Z.of_N k) <= geo_dist a b c d < IZR (Z.of_N k) + 1)%R /\ (k < 20100001)%N.
Proof.
  pose proof (distance_bound a b c d) as Hd. set (m := geo_dist a b c d) in *. unfold double_to_unsigned.
  assert (IZR (2 ^ 32) = 4294967296%R) as E32 by (f_equal; reflexivity). rewrite E32.
  destruct (Rlt_dec (-1) m) as [_|H]; [|lra]. destruct (Rlt_dec m 4294967296) as [_|H]; [|lra]. cbn [chk mbind option_bind].
  destruct (Rlt_dec m 0) as [H|_]; [lra|]. destruct (base_Int_part m) as [B1 B2].
  assert (0 <= Int_part m)%Z as H0. { apply Z.lt_succ_r, lt_IZR. rewrite succ_IZR. lra. }
  eexists. split; [done|]. rewrite Z2N.id by done. split; [lra|].
  assert (Int_part m < 20100001)%Z; [|lia]. apply lt_IZR. lra.
Qed.

Section loop.
Context (fo tail head : list nat) (lat lon : list R).
Context (Hc : csr (length fo - 1) fo head) (Ht : tails_ok fo tail head).
Context (Hlat : length fo - 1 <= length lat) (Hlon : length fo - 1 <= length lon).

(** Arc [e] has its weight. *)
Definition weighed (w : list N) (e : nat) : Prop := exists x y a b c d k,
  tail !! e = Some x /\ head !! e = Some y /\ w !! e = Some k /\
  lat !! x = Some a /\ lon !! x = Some b /\ lat !! y = Some c /\ lon !! y = Some d /\
  double_to_unsigned (geo_dist a b c d) = Some k.

Lemma weighed_insert w e e' k : weighed w e -> e <> e' -> weighed (<[e' := k]> w) e.
Proof.
  intros (x & y & a & b & c & d & k' & H1 & H2 & H3 & H4) Hne. exists x, y, a, b, c, d, k'.
  split; [done|]. split; [done|]. rewrite list_lookup_insert_ne by done. done.
Qed.

Lemma weigh_arc_spec x e w : out_arc fo x e -> length w = length head ->
  exists w', weigh_arc head lat lon x e w = Some w' /\ length w' = length head /\ weighed w' e /\
    forall e', e' <> e -> weighed w e' -> weighed w' e'.
Proof.
  intros Hx Hl. pose proof (proj2 Ht x e Hx) as Hte.
  assert (x < length fo - 1 /\ e < length head) as [Hxn Hel].
  { split; [|rewrite <- (proj1 Ht); by eapply lookup_lt_Some]. destruct Hx as (lo & hi & _ & Hhi & _). apply lookup_lt_Some in Hhi. lia. }
  destruct (lookup_lt_is_Some_2 head e Hel) as [y Hy]. pose proof (csr_head _ _ _ Hc y (elem_of_list_lookup_2 _ _ _ Hy)) as Hyn.
  destruct (lookup_lt_is_Some_2 lat x) as [a Ha]; [lia|]. destruct (lookup_lt_is_Some_2 lon x) as [b Hb]; [lia|].
  destruct (lookup_lt_is_Some_2 lat y) as [c Hcy]; [lia|]. destruct (lookup_lt_is_Some_2 lon y) as [d Hd]; [lia|].
  destruct (meters_spec a b c d) as (k & Ek & _). unfold weigh_arc.
  rewrite Hy, bind_S, Ha, bind_S, Hb, bind_S, Hcy, bind_S, Hd, bind_S, Ek, bind_S. rewrite wr_Some by lia.
  eexists. split; [done|]. split; [by rewrite insert_length|]. split.
  - exists x, y, a, b, c, d, k. split_and!; try done. apply list_lookup_insert. lia.
  - intros e' Hne Hw. by apply weighed_insert.
Qed.

Lemma geographic_weights_spec : exists w, geographic_weights fo head lat lon = Some w /\ length w = length head /\
  forall e, e < length head -> weighed w e.
Proof.
  unfold geographic_weights.
  destruct (for_range_inv (fun x w => length w = length head /\ forall s, fo !! x = Some s -> forall e, e < s -> weighed w e)
    (fun x weight => lo ← fo !! x; hi ← fo !! (x + 1); for_range lo hi (weigh_arc head lat lon x) weight) 0 (length fo - 1) (replicate (length head) 0%N)) as (w & E & Hl & Hw).
  - lia.
  - split; [apply replicate_length|]. intros s Hs. rewrite (csr_first _ _ _ Hc) in Hs. injection Hs as <-. lia.
  - intros x w Hx [Hl Hw]. destruct (lookup_lt_is_Some_2 fo x) as [lo Hlo]; [lia|]. destruct (lookup_lt_is_Some_2 fo (x + 1)) as [hi Hhi]; [lia|].
    rewrite Hlo, bind_S, Hhi, bind_S. replace (x + 1) with (S x) in Hhi by lia. pose proof (csr_mono _ _ _ Hc x lo hi Hlo Hhi) as Hle.
    destruct (for_range_inv (fun i w' => length w' = length head /\ forall e, e < i -> weighed w' e) (weigh_arc head lat lon x) lo hi w) as (w' & E & Hl' & Hw').
    + done.
    + split; [done|]. by apply Hw.
    + intros i w1 Hi [Hl1 Hw1]. destruct (weigh_arc_spec x i w1) as (w2 & E2 & Hl2 & Hi2 & Hr); [by exists lo, hi; replace (S x) with (S x) by lia|done|].
      exists w2. split; [done|]. split; [done|]. intros e He. destruct (decide (e = i)) as [-> |Hne]; [done|]. apply Hr; [done|]. apply Hw1. lia.
    + exists w'. split; [done|]. split; [done|]. intros s Hs e He. rewrite Hhi in Hs. injection Hs as <-. by apply Hw'.
  - exists w. split; [done|]. split; [done|]. apply Hw. apply (csr_last _ _ _ Hc).
Qed.
End loop.

(** ** Walks *)
(** The great circle between the ends of a walk is shorter than its weights, if every arc adds one meter for rounding. *)
Lemma walk_meters tail head (lat lon : list R) w : weighs_meters earth_radius tail head lat lon w ->
  (forall e x y, tail !! e = Some x -> head !! e = Some y -> is_Some (lat !! y) /\ is_Some (lon !! y)) ->
  forall s p t, awalk tail head s p t -> forall a b c d, lat !! s = Some a -> lon !! s = Some b -> lat !! t = Some c -> lon !! t = Some d ->
  (geo_dist a b c d <= IZR (Z.of_N (total w p)) + INR (length p))%R.
Proof.
  intros [Hl Hw] Hco s p t Hp. induction Hp as [u|u e x p v He Hx Hp IH]; intros a b c d Ha Hb Hc Hd.
  - simplify_eq. pose proof (compute_distance_self (a, b)) as E. unfold compute_distance in E. cbn [fst snd] in E. rewrite E. cbn. lra.
  - destruct (Hco e u x He Hx) as [[c' Hc'] [d' Hd']]. pose proof (IH c' d' c d Hc' Hd' Hc Hd) as H1.
    destruct (lookup_lt_is_Some_2 w e) as [k Hk]; [rewrite Hl; by eapply lookup_lt_Some|].
    destruct (Hw e u x k a b c' d' He Hx Hk Ha Hb Hc' Hd') as (m & Hm & Hkm).
    assert (m = geo_dist a b c' d') as ->.
    { destruct Hm as (q & -> & Hq). destruct (geo_dist_great_circle a b c' d') as (q' & -> & Hq'). f_equal. eapply angle_unique; done. }
    pose proof (compute_distance_triangle (a, b) (c', d') (c, d)) as Htri. unfold compute_distance in Htri. cbn [fst snd] in Htri.
    change (total w (e :: p)) with (default 0%N (w !! e) + total w p)%N. rewrite Hk. cbn [default length]. change (default 0%N (Some k)) with k. rewrite N2Z.inj_add, plus_IZR, S_INR. unfold Datatypes.id. lra.
Qed.
