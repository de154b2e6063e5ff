(** The arrays of the simple loaders (C54). *)
From Coq Require Import String.
From Verif Require Import Base BitVectorModel BitVectorSpec BitVectorBulkProofs IdMapperModel OsmGraphModel OsmGraphSpec OsmIdProofs OsmLoadProofs OsmProfileModel OsmProfileProofs OsmDecodeProofs OsmSimpleModel.
Ltac Zify.zify_post_hook ::= idtac.

Lemma way_unique {D T} (file : list (element D T)) id ns t ns' t' : NoDup (way_ids file) -> EWay id ns t ∈ file -> EWay id ns' t' ∈ file -> ns = ns' /\ t = t'.
Proof.
  induction file as [|e f IH]; intros Hnd H1 H2; [by apply elem_of_nil in H1|].
  assert (forall ns t, EWay (D := D) id ns t ∈ f -> id ∈ way_ids f) as Hids.
  { intros n u H. unfold way_ids. apply elem_of_list_In, in_flat_map. eexists. split; [by apply elem_of_list_In|]. by left. }
  cbn in Hnd. apply elem_of_cons in H1 as [<-|H1], H2 as [Heq|H2].
  - injection Heq as -> ->. done.
  - cbn in Hnd. apply NoDup_cons in Hnd as [Hn _]. exfalso. apply Hn. by eapply Hids.
  - subst e. cbn in Hnd. apply NoDup_cons in Hnd as [Hn _]. exfalso. apply Hn. by eapply Hids.
  - apply IH; [|done|done]. by apply NoDup_app in Hnd as (_ & _ & ?).
Qed.
Lemma ordered_read_elem {D T} (file : list (element D T)) e : e ∈ ordered_read file <-> e ∈ file.
Proof.
  unfold ordered_read. rewrite !elem_of_app, !elem_of_list_In, !filter_In. destruct e; cbn; naive_solver.
Qed.

Lemma fill_spec {D} wm ways value (file : list (element D tag_list)) arr : numbers wm ways -> StronglySorted lt ways -> NoDup (way_ids file) -> length arr = length ways ->
  (forall id ns tags, EWay id ns tags ∈ file -> id ∈ ways -> is_Some (value tags)) ->
  exists arr', fill wm value file arr = Some arr' /\ length arr' = length ways /\
    forall id ns tags, EWay id ns tags ∈ file -> id ∈ ways -> exists v, value tags = Some v /\ arr' !! rank ways id = Some v.
Proof.
  intros Hn Hs Hnd Hl Hv. unfold fill.
  match goal with |- context [for_each ?l ?body ?init] =>
    destruct (for_each_inv (fun pre arr' => length arr' = length ways /\ forall id ns tags, EWay id ns tags ∈ pre -> id ∈ ways -> exists v, value tags = Some v /\ arr' !! rank ways id = Some v) body l init) as (arr' & E & H1 & H2) end.
  - split; [done|]. intros id ns tags H. by apply elem_of_nil in H.
  - intros pre e post s Hsplit [H1 H2]. assert (forall x, x ∈ pre ++ [e] -> x ∈ file) as Hin.
    { intros x Hx. apply ordered_read_elem. rewrite Hsplit. apply elem_of_app in Hx as [Hx|Hx%elem_of_list_singleton]; apply elem_of_app; [by left|right; subst; by left]. }
    destruct e as [|id ns tags|].
    + eexists. split; [done|]. split; [done|]. intros id' ns' tags' [Hq|Hq%elem_of_list_singleton]%elem_of_app Hid9; [by eapply H2|done].
    + rewrite (nu_local_or _ _ Hn), bind_S. case_bool_decide as Hid.
      * destruct (Hv id ns tags) as [v Ev]; [apply Hin; apply elem_of_app; right; by left|done|]. rewrite Ev, bind_S. pose proof (rank_lt ways id Hid) as Hrk. rewrite (wr_Some s) by lia.
        eexists. split; [done|]. split; [by rewrite insert_length|]. intros id' ns' tags' H Hid'. destruct (decide (id' = id)) as [-> |Hne].
        -- destruct (way_unique file id ns tags ns' tags') as [_ <-]; [done|apply Hin; apply elem_of_app; right; by left|by apply Hin|]. exists v. split; [done|]. apply list_lookup_insert. lia.
        -- apply elem_of_app in H as [H| H%elem_of_list_singleton]; [|congruence]. destruct (H2 id' ns' tags' H Hid') as (v' & Ev' & Hv'). exists v'. split; [done|]. rewrite list_lookup_insert_ne; [done|]. intros Hr.
           apply Hne. assert (ways !! rank ways id = Some id) as E1 by (by apply rank_lookup). assert (ways !! rank ways id' = Some id') as E2 by (by apply rank_lookup). rewrite Hr in E1. congruence.
      * eexists. split; [done|]. split; [done|]. intros id' ns' tags' [Hq|Hq%elem_of_list_singleton]%elem_of_app Hid9; [by eapply H2|]. congruence.
    + eexists. split; [done|]. split; [done|]. intros id' ns' tags' [Hq|Hq%elem_of_list_singleton]%elem_of_app Hid9; [by eapply H2|done].
  - exists arr'. split; [done|]. split; [done|]. intros id ns tags H. apply (H2 id ns tags). by apply ordered_read_elem.
Qed.

Lemma travel_times_spec dist way way_speed : length way = length dist -> (forall a w, way !! a = Some w -> exists s, way_speed !! w = Some s /\ s <> 0%N) ->
  exists t, travel_times dist way way_speed = Some t /\ length t = length dist /\
    forall a d w s, dist !! a = Some d -> way !! a = Some w -> way_speed !! w = Some s -> t !! a = Some ((d * 18000) mod 2 ^ 32 / s / 5)%N.
Proof.
  intros Hl Hw. unfold travel_times.
  match goal with |- context [for_range 0 ?n ?body ?init] =>
    destruct (for_range_inv (fun i t => length t = length dist /\ (forall a, i <= a -> t !! a = dist !! a) /\
      forall a d w s, a < i -> dist !! a = Some d -> way !! a = Some w -> way_speed !! w = Some s -> t !! a = Some ((d * 18000) mod 2 ^ 32 / s / 5)%N) body 0 n init) as (t & -> & H1 & _ & H3) end.
  - lia.
  - split; [done|]. split; [done|]. intros. lia.
  - intros i t [_ Hi] (H1 & H2 & H3). destruct (lookup_lt_is_Some_2 dist i Hi) as [d Hd]. rewrite (H2 i) by lia. rewrite Hd, bind_S. destruct (lookup_lt_is_Some_2 way i) as [w Hwi]; [lia|]. rewrite Hwi, bind_S.
    destruct (Hw _ _ Hwi) as (s & Es & Hs). rewrite Es, bind_S. unfold travel_time. rewrite bool_decide_eq_true_2 by done. cbn [chk mbind option_bind]. rewrite (wr_Some t) by lia. eexists. split; [done|]. split; [by rewrite insert_length|]. split.
    + intros a Ha. rewrite list_lookup_insert_ne by lia. apply H2. lia.
    + intros a d' w' s' Ha Hd' Hw' Hs'. destruct (decide (a = i)) as [-> |Hne]; [|rewrite list_lookup_insert_ne by done; apply (H3 a d' w' s'); [lia|done..]].
      rewrite list_lookup_insert by lia. congruence.
  - exists t. split; [done|]. split; [done|]. intros a d w s Ha. apply H3; [|done]. by apply lookup_lt_Some in Ha.
Qed.
(** [d] metres at [s] km/h take 3600 d / s milliseconds. *)
Lemma travel_time_exact d s : (d * 18000 < 2 ^ 32)%N -> s <> 0%N -> ((d * 18000) mod 2 ^ 32 / s / 5 = d * 3600 / s)%N.
Proof.
  intros Hd Hs. rewrite N.mod_small by done. rewrite N.div_div by done. replace (d * 18000)%N with (d * 3600 * 5)%N by lia. by rewrite N.div_mul_cancel_r.
Qed.

Lemma popcount_ways v P ids : set_rep v P -> enum P ids -> bv_popcount v = Some (length ids).
Proof.
  intros (l & Hl & Hb) He. rewrite (popcount_spec v l Hl), count_true_ids. f_equal. f_equal. eapply enum_unique; [by apply ids_enum|done].
Qed.


(** The decoder is defined for all relations. *)
Lemma decode_defined relation ms tags : is_Some (decode_osm_car_turn_restrictions relation ms tags).
Proof.
  unfold decode_osm_car_turn_restrictions. destruct (get tags "restriction") as [value|]; [|done]. destruct (restriction_category value) as [[b rest]|]; [|done]. destruct (restriction_direction rest) as [d|]; [|done].
  destruct (collect_spec ms) as (s & -> & Hs). rewrite bind_S. destruct s as [[[v from] to]|]; [|done]. destruct Hs as (Hv & Hf & Ht).
  destruct (only_ways_spec ms from _ Hf) as (from' & -> & Hf'). destruct (only_ways_spec ms to _ Ht) as (to' & -> & Ht').
  assert (forall {B} (g : member -> B), exists x, match v with None => Some None | Some i => m ← ms !! i; Some (Some (g m)) end = Some x) as Hg.
  { intros B g. destruct v as [i|]; [|by eexists]. cbn in Hv. apply Forall2_cons_inv_l in Hv as (m & k & -> & _). by eexists. }
  destruct (Hg _ m_type) as [x ->]. rewrite bind_S.
  assert (exists y, match v with None => Some None | Some i => m ← ms !! i; Some (if decide (N.of_nat (m_id m) = 2 ^ 64 - 1)%N then None else Some (m_id m)) end = Some y) as [y ->].
  { destruct v as [i|]; [|by eexists]. cbn in Hv. apply Forall2_cons_inv_l in Hv as (m & k & -> & _). by eexists. }
  rewrite !bind_S. assert (is_Some (if decide (to' = []) then Some [] else if decide (from' = []) then Some [] else if decide (b = true /\ length to' <> 1) then Some [] else if decide (b = true /\ length from' <> 1) then Some []
    else for_each from' (fun i out => f ← ms !! i; for_each to' (fun j out => t ← ms !! j; Some (out ++ [mkRestr relation b d (m_id f) y (m_id t)])) out) [])) as H.
  { repeat (case_decide; [done|]). eexists. by apply (product_spec ms from' _ to' _ (fun a c => mkRestr relation b d (m_id a) y (m_id c)) Hf' Ht'). }
  destruct x as [[]|]; done.
Qed.
