(** Reading the ways of an OSM file appends the arcs of the specification (C49). *)
From Verif Require Import Base BitVectorModel BitVectorSpec IdMapperModel OsmGraphModel OsmGraphSpec OsmIdProofs.
Ltac Zify.zify_post_hook ::= idtac.

(** Positions at which lists start when they are concatenated. *)
Fixpoint starts {A} (o : nat) (l : list (list A)) : list nat :=
  match l with [] => [] | g :: l => o :: starts (o + length g) l end.
Lemma starts_app {A} o (l k : list (list A)) : starts o (l ++ k) = starts o l ++ starts (o + length (concat l)) k.
Proof.
  revert o. induction l as [|g l IH]; intros o; cbn; [by rewrite Nat.add_0_r|]. rewrite IH, app_length. do 2 f_equal. f_equal. lia.
Qed.
Lemma starts_length {A} o (l : list (list A)) : length (starts o l) = length l.
Proof. revert o. induction l as [|g l IH]; intros o; cbn; [done|]. by rewrite IH. Qed.

Section build.
Context {D F T : Type} (narrow : D -> F) (fzero : F) (dzero : D) (dplus : D -> D -> D) (geo_dist : F -> F -> F -> F -> D) (to_unsigned : D -> N).
Context (geo : road_geometry) (rids wids mids : list nat).
Local Notation arc := (arc (F := F)).
Local Notation arcs := (arcs (F := F)).

Definition geos (E : list arc) : list (list (F * F)) := map (fun a => shown geo (x_geo a)) E.

Record rep (s : arcs) (E : list arc) : Prop := {
  re_tail : a_tail s = map (fun a => rank rids (x_tail a)) E;
  re_head : a_head s = map (fun a => rank rids (x_head a)) E;
  re_dist : a_dist s = map x_dist E;
  re_way : a_way s = map (fun a => rank wids (x_way a)) E;
  re_anti : a_anti s = map x_anti E;
  re_first : a_first s = if keeps_geometry geo then starts 0 (geos E) else [];
  re_lat : a_lat s = map fst (concat (geos E));
  re_lon : a_lon s = map snd (concat (geos E));
  re_ids : Forall (fun a => x_tail a ∈ rids /\ x_head a ∈ rids /\ x_way a ∈ wids) E }.

Definition buf (s : arcs) (g : list (F * F)) : Prop := if keeps_geometry geo then buf_lat s = map fst g /\ buf_lon s = map snd g else buf_lat s = [] /\ buf_lon s = [].

Lemma rep_with_buf s E la lo : rep s E -> rep (with_buf s la lo) E.
Proof. intros [H1 H2 H3 H4 H5 H6 H7 H8 H9]. by split. Qed.

Lemma map_last {A B} (f : A -> B) l : last (map f l) = f <$> last l.
Proof. induction l as [|a [|b l] IH]; [done..|]. exact IH. Qed.

Lemma on_new_arc_rep s E a : rep s E -> buf s (x_geo a) -> x_tail a ∈ rids -> x_head a ∈ rids -> x_way a ∈ wids ->
  exists s', on_new_arc geo (rank rids (x_tail a)) (rank rids (x_head a)) (x_dist a) (rank wids (x_way a)) (x_anti a) s = Some s' /\ rep s' (E ++ [a]) /\
    buf_lat s' = buf_lat s /\ buf_lon s' = buf_lon s.
Proof.
  intros [H1 H2 H3 H4 H5 H6 H7 H8 H9] Hbuf Ht Hh Hw.
  assert (geos (E ++ [a]) = geos E ++ [shown geo (x_geo a)]) as Eg by (unfold geos; by rewrite map_app).
  assert (Forall (fun a => x_tail a ∈ rids /\ x_head a ∈ rids /\ x_way a ∈ wids) (E ++ [a])) as H9' by (apply Forall_app; split; [done|by constructor]).
  (* the arrays with geometry *)
  assert (forall la lo, keeps_geometry geo = true -> la = map fst (shown geo (x_geo a)) -> lo = map snd (shown geo (x_geo a)) ->
    rep (mkArcs (a_tail s ++ [rank rids (x_tail a)]) (a_head s ++ [rank rids (x_head a)]) (a_dist s ++ [x_dist a]) (a_way s ++ [rank wids (x_way a)]) (a_anti s ++ [x_anti a])
           (a_first s ++ [length (a_lat s)]) (a_lat s ++ la) (a_lon s ++ lo) (buf_lat s) (buf_lon s)) (E ++ [a])) as Hadd.
  { intros la lo Hk -> ->. split; cbn; [by rewrite map_app, H1|by rewrite map_app, H2|by rewrite map_app, H3|by rewrite map_app, H4|by rewrite map_app, H5| | | |done].
    - rewrite Hk in H6 |- *. rewrite Eg, starts_app, H6, H7, map_length. done.
    - by rewrite Eg, concat_app, map_app, H7; cbn; rewrite app_nil_r.
    - by rewrite Eg, concat_app, map_app, H8; cbn; rewrite app_nil_r. }
  unfold on_new_arc. cbn [a_tail a_head a_dist a_way a_anti a_first a_lat a_lon buf_lat buf_lon].
  destruct geo eqn:Egeo; cbn [keeps_geometry] in *.
  - eexists. split; [done|]. split; [|done]. split; cbn; [by rewrite map_app, H1|by rewrite map_app, H2|by rewrite map_app, H3|by rewrite map_app, H4|by rewrite map_app, H5|by rewrite Egeo| | |done].
    + by rewrite Eg, concat_app, map_app, H7; cbn; rewrite app_nil_r.
    + by rewrite Eg, concat_app, map_app, H8; cbn; rewrite app_nil_r.
  - unfold buf in Hbuf. rewrite Egeo in Hbuf. cbn in Hbuf. destruct Hbuf as [Hb1 Hb2]. eexists. split; [done|]. split; [|done].
    apply Hadd; done.
  - unfold buf in Hbuf. rewrite Egeo in Hbuf. cbn in Hbuf. destruct Hbuf as [Hb1 Hb2]. rewrite Hb1, Hb2, map_length.
    destruct (x_geo a) as [|p [|q l]] eqn:Ex.
    + rewrite decide_False by (cbn; lia). rewrite decide_False by (cbn; tauto). eexists. split; [done|]. rewrite Hb1, Hb2 in Hadd. split; [|done]. by apply Hadd.
    + rewrite decide_True by done. cbn [head map]. rewrite !bind_S. eexists. split; [done|]. rewrite Hb1, Hb2 in Hadd. split; [|done]. by apply Hadd.
    + rewrite decide_False by (cbn; lia). rewrite decide_True by done. rewrite !map_last. cbn [head map]. rewrite !bind_S.
      destruct (last (p :: q :: l)) as [z|] eqn:El; [|by apply last_None in El]. cbn [fmap option_fmap option_map]. rewrite !bind_S.
      eexists. split; [done|]. rewrite Hb1, Hb2 in Hadd. split; [|done]. apply Hadd; [done|..]; cbn [shown map fst snd]; change (last (q :: l) = Some z) in El; rewrite El; done.
Qed.

Lemma add_segment_rep s E pos id dir x inner y : dir <> Closed -> rep s E -> buf s (map pos inner) -> x ∈ rids -> y ∈ rids -> id ∈ wids ->
  exists s', add_segment to_unsigned geo dir (rank rids x) (rank rids y) (line_length dplus geo_dist pos dzero x (inner ++ [y])) (rank wids id) s = Some s' /\
    rep s' (E ++ segment_arcs dzero dplus geo_dist to_unsigned pos id dir (x, inner, y)).
Proof.
  intros Hdir Hs Hb Hx Hy Hid. set (d := to_unsigned (line_length dplus geo_dist pos dzero x (inner ++ [y]))).
  set (fw := mkArc x y id false d (map pos inner)). set (bw := mkArc y x id true d (map pos (reverse inner))).
  assert (forall s g, buf s (map pos g) -> buf (with_buf s (reverse (buf_lat s)) (reverse (buf_lon s))) (map pos (reverse g))) as Hrev.
  { clear. intros s g. unfold buf. destruct (keeps_geometry geo); cbn; intros [-> ->]; [|done]. by rewrite <- !fmap_reverse. }
  destruct (on_new_arc_rep s E fw) as (s1 & E1 & H1 & Hb1 & Hb2); [done..|]. cbn [x_tail x_head x_dist x_way x_anti fw] in E1.
  destruct dir; cbn [add_segment segment_arcs]; fold d fw bw; [| | |done].
  - rewrite E1, bind_S.
    destruct (on_new_arc_rep (with_buf s1 (reverse (buf_lat s1)) (reverse (buf_lon s1))) (E ++ [fw]) bw) as (s2 & E2 & H2 & _ & _); [by apply rep_with_buf| |done..|].
    { apply Hrev. unfold buf in *. by rewrite Hb1, Hb2. }
    exists s2. split; [exact E2|]. by rewrite <- app_assoc in H2.
  - by exists s1.
  - destruct (on_new_arc_rep (with_buf s (reverse (buf_lat s)) (reverse (buf_lon s))) E bw) as (s2 & E2 & H2 & _ & _); [by apply rep_with_buf|by apply Hrev|done..|].
    by exists s2.
Qed.

Lemma line_length_snoc pos d x l y : line_length dplus geo_dist pos d x (l ++ [y]) =
  let z := default x (last l) in dplus (line_length dplus geo_dist pos d x l) (geo_dist (pos y).1 (pos y).2 (pos z).1 (pos z).2).
Proof.
  revert d x. induction l as [|a l IH]; intros d x; [done|]. cbn [line_length app]. rewrite IH. cbn zeta. destruct l as [|b l]; [done|].
  assert (exists w, last (b :: l) = Some w) as [w Hw]. { destruct (last (b :: l)) eqn:El; [eauto|]. by apply last_None in El. }
  change (last (a :: b :: l)) with (last (b :: l)). by rewrite Hw.
Qed.

Context (mm rm wm : mapper).
Context (Hmm : numbers mm mids) (Hrm : numbers rm rids) (Hwm : numbers wm wids).
Context (Hms : StronglySorted lt mids) (Hrs : StronglySorted lt rids) (Hws : StronglySorted lt wids).
Context (pos : nat -> F * F) (lat lon : list F).
Context (Hlat : lat = map (fun x => (pos x).1) mids) (Hlon : lon = map (fun x => (pos x).2) mids).

Lemma lat_rank x : x ∈ mids -> lat !! rank mids x = Some (pos x).1 /\ lon !! rank mids x = Some (pos x).2.
Proof.
  intros Hx. assert (mids !! rank mids x = Some x) as Hk by (by apply rank_lookup).
  rewrite Hlat, Hlon. split; [change (map (fun x => (pos x).1) mids) with ((fun x => (pos x).1) <$> mids)|change (map (fun x => (pos x).2) mids) with ((fun x => (pos x).2) <$> mids)]; by rewrite list_lookup_fmap, Hk.
Qed.

Definition inR (y : nat) : bool := bool_decide (y ∈ rids).

Lemma way_loop id dir rest : dir <> Closed -> id ∈ wids -> forall x inner s E,
  rep s E -> buf s (map pos inner) -> x ∈ rids -> Forall (fun z => z ∈ mids) (x :: inner) -> Forall (fun z => z ∈ mids) rest ->
  (rest = [] /\ inner = [] \/ exists y, last rest = Some y /\ y ∈ rids) ->
  exists s' p r d, for_each rest (way_step dzero dplus geo_dist to_unsigned geo mm rm lat lon dir (rank wids id))
      (s, rank mids (default x (last inner)), rank rids x, line_length dplus geo_dist pos dzero x inner) = Some (s', p, r, d) /\
    rep s' (E ++ flat_map (segment_arcs dzero dplus geo_dist to_unsigned pos id dir) (segments inR x inner rest)) /\ buf s' [].
Proof.
  intros Hdir Hid. induction rest as [|y rest IH]; intros x inner s E Hs Hb Hx Hin Hrest Hlast.
  - destruct Hlast as [[_ ->]|(y & Hy & _)]; [|done]. cbn. eexists _, _, _, _. split; [done|]. rewrite app_nil_r. by split.
  - apply Forall_cons in Hrest as [Hy Hrest]. set (f := way_step dzero dplus geo_dist to_unsigned geo mm rm lat lon dir (rank wids id)) in *. cbn [for_each].
    match goal with |- context [f y ?st] => assert (Hstep : f y st = way_step dzero dplus geo_dist to_unsigned geo mm rm lat lon dir (rank wids id) y st) by done end.
    rewrite Hstep. clear Hstep. unfold way_step. cbv beta iota.
    rewrite (nu_local _ _ Hmm y Hy), bind_S. destruct (lat_rank y Hy) as [-> ->]. rewrite !bind_S.
    assert (default x (last inner) ∈ mids) as Hz.
    { apply Forall_cons in Hin as [? Hin]. rewrite Forall_forall in Hin. destruct (last inner) as [z|] eqn:El; [|done]. cbn. apply Hin. by apply last_Some_elem_of. }
    destruct (lat_rank _ Hz) as [-> ->]. rewrite !bind_S.
    set (s1 := if keeps_geometry geo then with_buf s (buf_lat s ++ [(pos y).1]) (buf_lon s ++ [(pos y).2]) else s).
    pose proof (line_length_snoc pos dzero x inner y) as Hll. cbn zeta in Hll. rewrite <- Hll. clear Hll.
    assert (rep s1 E) as Hs1 by (unfold s1; destruct (keeps_geometry geo); [by apply rep_with_buf|done]).
    assert (buf s1 (map pos (inner ++ [y]))) as Hb1.
    { unfold buf, s1 in *. destruct (keeps_geometry geo); [|done]. cbn. destruct Hb as [-> ->]. rewrite !map_app. done. }
    rewrite (nu_local_or _ _ Hrm y), bind_S. cbn [segments]. unfold inR at 1. destruct (bool_decide (y ∈ rids)) eqn:Ey.
    + apply bool_decide_eq_true in Ey.
      assert (exists s2, (if keeps_geometry geo then la ← pop_back (buf_lat s1); lo ← pop_back (buf_lon s1); Some (with_buf s1 la lo) else Some s1) = Some s2 /\ rep s2 E /\ buf s2 (map pos inner)) as (s2 & Es2 & Hs2 & Hb2).
      { unfold buf in *. destruct (keeps_geometry geo); [|by exists s1]. destruct Hb1 as [-> ->]. unfold pop_back. rewrite !map_app. cbn [map].
        rewrite !bool_decide_eq_true_2 by (intros Hnil; by apply app_nil in Hnil as [_ ?]). cbn [chk]. rewrite !bind_S. rewrite !app_length. cbn [length]. rewrite !Nat.add_sub, !take_app.
        eexists. split; [done|]. split; [by apply rep_with_buf|]. done. }
      rewrite Es2, bind_S. destruct (add_segment_rep s2 E pos id dir x inner y) as (s3 & Es3 & Hs3); [done..|]. rewrite Es3, bind_S. rewrite bind_S.
      destruct (IH y [] (with_buf s3 [] []) (E ++ segment_arcs dzero dplus geo_dist to_unsigned pos id dir (x, inner, y))) as (s' & p & r & d & E' & Hs' & Hb'); [by apply rep_with_buf| |done|by constructor|done| |].
      { unfold buf. cbn. by destruct (keeps_geometry geo). }
      { destruct rest as [|z rest]; [by left|]. right. destruct Hlast as [[? _]|(w & Hw & Hwr)]; [done|]. exists w. by split. }
      cbn [last default line_length] in E'. exists s', p, r, d. split; [exact E'|]. split; [|done]. cbn [flat_map]. by rewrite <- app_assoc in Hs'.
    + apply bool_decide_eq_false in Ey. rewrite bind_S.
      destruct (IH x (inner ++ [y]) s1 E) as (s' & p & r & d & E' & Hs' & Hb'); [done|done|done| |done| |].
      { apply Forall_cons in Hin as [? Hin]. constructor; [done|]. apply Forall_app. split; [done|by constructor]. }
      { right. destruct Hlast as [[? _]|(w & Hw & Hwr)]; [done|]. destruct rest as [|z rest]; [|by exists w]. cbn in Hw. congruence. }
      rewrite last_snoc in E'. cbn [default] in E'. exists s', p, r, d. split; [exact E'|]. by split.
Qed.

Context (cb : nat -> nat -> T -> way_direction).
Definition inW (y : nat) : bool := bool_decide (y ∈ wids).
Definition inM (y : nat) : bool := bool_decide (y ∈ mids).

Lemma read_way_rep id nodes tags s E : rep s E -> buf s [] ->
  ways_ok (D := D) inM inR inW (rank wids) cb [EWay id nodes tags] ->
  exists s', read_way dzero dplus geo_dist to_unsigned geo mm rm wm cb lat lon id nodes tags s = Some s' /\
    rep s' (E ++ element_arcs (D := D) dzero dplus geo_dist to_unsigned pos inR inW (rank wids) cb (EWay id nodes tags)) /\ buf s' [].
Proof.
  intros Hs Hb Hok. unfold read_way. rewrite (nu_local_or _ _ Hwm id), bind_S. cbn [element_arcs]. unfold inW at 1.
  destruct (bool_decide (id ∈ wids)) eqn:Eid; [|exists s; rewrite app_nil_r; by split]. apply bool_decide_eq_true in Eid.
  specialize (Hok id nodes tags). destruct (cb id (rank wids id) tags) eqn:Ecb.
  4: { exists s. split; [done|]. split; [|done]. assert (flat_map (segment_arcs dzero dplus geo_dist to_unsigned pos id Closed) (way_segments inR nodes) = []) as ->; [|by rewrite app_nil_r].
       induction (way_segments inR nodes) as [|[[? ?] ?] l IH]; [done|]. cbn. exact IH. }
  all: destruct Hok as [(x & y & Hx & HRx & Hy & HRy) Hall]; [by left|unfold inW; by rewrite bool_decide_eq_true_2|done|].
  all: destruct nodes as [|x' rest]; [done|]; injection Hx as ->.
  all: apply bool_decide_eq_true in HRx, HRy; assert (Forall (fun z => z ∈ mids) (x :: rest)) as Hall' by (eapply Forall_impl; [exact Hall|]; intros z; apply bool_decide_eq_true).
  all: apply Forall_cons in Hall' as [Hxm Hrm'].
  all: rewrite (nu_local _ _ Hmm x Hxm), bind_S, (nu_local _ _ Hrm x HRx), bind_S; cbn [way_segments].
  all: match goal with |- context [way_step _ _ _ _ _ _ _ _ _ ?dd] => destruct (way_loop id dd rest ltac:(done) Eid x [] s E) as (s' & p & r & d & E' & Hs' & Hb') end;
    [done|exact Hb|done|by constructor|done| |].
  1, 3, 5: destruct rest as [|z rest]; [by left|right; exists y; split; [exact Hy|done]].
  all: cbn [last default line_length] in E'; rewrite E', bind_S; exists s'; by split_and!.
Qed.
End build.
