(** osm_extract (C74). *)
From Coq Require Import String.
From Verif Require Import Base ProtobufModel VectorIoModel BitVectorModel BitVectorSpec BitVectorProofs BitVectorBulkProofs IdMapperModel TagMapModel OsmGraphModel OsmGraphSpec OsmIdProofs OsmLoadProofs OsmScanProofs OsmProfileModel OsmProfileSpec OsmProfileProofs
  OsmSimpleModel OsmSimpleProofs ExtractModel ExtractSpec Properties_VectorIo Properties_OsmProfile.
Ltac Zify.zify_post_hook ::= idtac.

(** ** The size of the bit vectors *)
Section size.
Context (B : N).
Definition good (v : bitvec) : Prop := (exists l, bv_rep v l) /\ (N.of_nat (bv_size v) <= B)%N.
Definition id_ok (x : nat) : Prop := (2 * N.of_nat x + 1 <= B)%N.
Lemma good_large v x v' : good v -> id_ok x -> bv_large_enough v x false = Some v' -> good v' /\ x < bv_size v'.
Proof.
  intros [(l & Hl) Hs] Hx E. destruct (large_enough_spec v l x false Hl) as (k & Hk & Hk' & H3).
  destruct H3 as (w & E' & Hw). { left. unfold resize_ok. tauto. } assert (w = v') as -> by congruence. pose proof (rep_size _ _ Hl) as S1. pose proof (rep_size _ _ Hw) as S2. case_decide as Hc.
  - assert (length (resized l (2 ^ k) false) = 2 ^ k) as L. { unfold resized. rewrite app_length, take_length, replicate_length. lia. }
    assert (2 ^ k <= 2 * x + 1) as Hb. { destruct Hk' as [-> |Hk']; [cbn; lia|]. destruct k as [|k]; [cbn; lia|]. cbn [Nat.pow]. replace (S k - 1) with k in Hk' by lia. lia. }
    rewrite L in S2. unfold id_ok in Hx. split; [split; [by eexists|lia]|lia].
  - split; [split; [by eexists|lia]|lia].
Qed.
Lemma good_set v x v' : good v -> x < bv_size v -> bv_set v x = Some v' -> good v'.
Proof.
  intros [(l & Hl) Hs] Hx E. pose proof (rep_size _ _ Hl) as S1. destruct (op_spec v l (OSet x) Hl) as (w & E' & Hw); [cbn; lia|]. cbn in E'. assert (w = v') as -> by congruence.
  split; [by eexists|]. rewrite (rep_size _ _ Hw). unfold op_list. rewrite insert_length. lia.
Qed.
Lemma good_mark v x v' : good v -> id_ok x -> mark v x = Some v' -> good v'.
Proof.
  intros Hv Hx. unfold mark. destruct (bv_large_enough v x false) as [w|] eqn:E; [|done]. rewrite bind_S. destruct (good_large _ _ _ Hv Hx E). by apply good_set.
Qed.
Lemma good_way_node (all : bool) x md rt md' rt' : good md -> good rt -> id_ok x -> (if all then scan_way_node_all else scan_way_node) x (md, rt) = Some (md', rt') -> good md' /\ good rt'.
Proof.
  intros Hm Hr Hx. destruct all.
  - unfold scan_way_node_all. destruct (bv_large_enough md x false) as [m1|] eqn:E1; [|done]. rewrite bind_S. destruct (bv_large_enough rt x false) as [r1|] eqn:E2; [|done]. rewrite bind_S.
    destruct (good_large _ _ _ Hm Hx E1) as [G1 G1'], (good_large _ _ _ Hr Hx E2) as [G2 G2']. destruct (bv_set r1 x) as [r2|] eqn:E3; [|done]. rewrite bind_S. destruct (bv_set m1 x) as [m2|] eqn:E4; [|done]. rewrite bind_S.
    intros [= <- <-]. split; [exact (good_set _ _ _ G1 G1' E4)|exact (good_set _ _ _ G2 G2' E3)].
  - unfold scan_way_node. destruct (bv_large_enough md x false) as [m1|] eqn:E1; [|done]. rewrite bind_S. destruct (good_large _ _ _ Hm Hx E1) as [G1 G1']. destruct (bv_is_set m1 x) as [[]|]; [| |done]; rewrite bind_S.
    + destruct (mark rt x) as [r2|] eqn:E2; [|done]. rewrite bind_S. intros [= <- <-]. split; [done|]. exact (good_mark _ _ _ Hr Hx E2).
    + destruct (bv_set m1 x) as [m2|] eqn:E4; [|done]. rewrite bind_S. intros [= <- <-]. split; [|done]. exact (good_set _ _ _ G1 G1' E4).
Qed.
Lemma good_way_nodes (all : bool) nodes md rt md' rt' : good md -> good rt -> Forall id_ok nodes -> for_each nodes (if all then scan_way_node_all else scan_way_node) (md, rt) = Some (md', rt') -> good md' /\ good rt'.
Proof.
  intros Hm Hr Hx. revert md rt Hm Hr. induction Hx as [|x nodes Hx _ IH]; intros md rt Hm Hr; cbn [for_each]; [by intros [= <- <-]|].
  destruct ((if all then scan_way_node_all else scan_way_node) x (md, rt)) as [[m1 r1]|] eqn:E; [|done]. cbn [mbind option_bind]. destruct (good_way_node _ _ _ _ _ _ Hm Hr Hx E) as [G1 G2]. exact (IH _ _ G1 G2).
Qed.
Definition good_mapping (m : id_mapping) : Prop := good (is_modelling_node m) /\ good (is_routing_node m) /\ good (is_routing_way m).
Lemma good_way {T} (used : nat -> T -> bool) all id nodes tags m m' : good_mapping m -> id_ok id -> Forall id_ok nodes -> scan_way used all id nodes tags m = Some m' -> good_mapping m'.
Proof.
  intros (H1 & H2 & H3) Hid Hn. unfold scan_way. destruct (bool_decide _ && _); [|by intros [= <-]]. destruct (mark (is_routing_way m) id) as [wy|] eqn:E1; [|done]. rewrite bind_S.
  destruct (for_each nodes _ _) as [[md rt]|] eqn:E2; [|done]. rewrite bind_S. cbv beta iota. destruct (head nodes) as [f|] eqn:Ef; [|done]. rewrite bind_S. destruct (last nodes) as [b|] eqn:Eb; [|done]. rewrite bind_S.
  destruct (bv_is_set md f) as [b1|]; [|done]. rewrite bind_S. destruct b1; [|done]. cbn [chk]. rewrite bind_S. destruct (bv_is_set md b) as [b2|]; [|done]. rewrite bind_S. destruct b2; [|done]. cbn [chk]. rewrite bind_S.
  pose proof (good_mark _ _ _ H3 Hid E1) as G3. destruct (good_way_nodes _ _ _ _ _ _ H1 H2 Hn E2) as [G1 G2]. rewrite Forall_forall in Hn.
  assert (id_ok f) as Hf. { apply Hn. destruct nodes; [done|]. injection Ef as ->. by left. } assert (id_ok b) as Hb by (by apply Hn, last_Some_elem_of).
  destruct all; [by intros [= <-]|]. destruct (mark rt f) as [r1|] eqn:E3; [|done]. rewrite bind_S. destruct (mark r1 b) as [r2|] eqn:E4; [|done]. rewrite bind_S. intros [= <-].
  split; [done|]. split; [|done]. cbn. exact (good_mark _ _ _ (good_mark _ _ _ G2 Hf E3) Hb E4).
Qed.
Lemma good_scan {D T} (used : nat -> T -> bool) all (file : list (element D T)) m :
  (forall id nodes tags, EWay id nodes tags ∈ file -> id_ok id /\ Forall id_ok nodes) -> load_osm_id_mapping None used all file = Some m -> good_mapping m.
Proof.
  intros Hf. unfold load_osm_id_mapping. assert (good_mapping (mkMapping bv_empty bv_empty bv_empty)) as H0.
  { assert (good bv_empty); [|done]. split; [exists []; apply rep_empty|cbn; lia]. }
  revert H0. generalize (mkMapping bv_empty bv_empty bv_empty). induction file as [|e file IH]; intros m0 H0; cbn [for_each]; [by intros [= <-]|].
  destruct (scan_element None used all e m0) as [m1|] eqn:E; [|done]. rewrite bind_S. apply IH; [intros; by eapply Hf; right|].
  destruct e as [id la lo tags|id nodes tags|id ms tags]; cbn in E; [by injection E as <-| |by injection E as <-]. destruct (Hf id nodes tags) as [G1 G2]; [by left|]. by eapply good_way.
Qed.
End size.
Lemma set_file_saved B v P : good B v -> set_rep v P -> (B + 511 < 2 ^ 64)%N -> set_file P (save_bits v).
Proof.
  intros [_ Hs] (l & Hl & Hb) HB garbage Hg. destruct (C40_bits v l garbage Hl) as (r & E & Hr); [rewrite <- (rep_size _ _ Hl); lia|done|]. exists r. split; [done|]. by exists l.
Qed.

(** ** The slowest arc *)
Lemma slowest_spec time : time <> [] -> exists a t, slowest_arc (length time) time = Some (Some a) /\ time !! a = Some t /\ (forall i x, time !! i = Some x -> (x <= t)%N) /\ (forall i, a < i -> time !! i <> Some t).
Proof.
  intros Hne. unfold slowest_arc.
  match goal with |- context [for_range 0 ?n ?body ?init] =>
    destruct (for_range_inv (fun i (s : option nat * N) => (i = 0 /\ s = (None, 0%N)) \/ exists a, s.1 = Some a /\ a < i /\ time !! a = Some s.2 /\ (forall j x, j < i -> time !! j = Some x -> (x <= s.2)%N) /\ (forall j, a < j < i -> time !! j <> Some s.2)) body 0 n init) as ([m t] & -> & H) end.
  - lia.
  - by left.
  - intros i [m t] [_ Hi] H. destruct (lookup_lt_is_Some_2 time i Hi) as [x Hx]. rewrite Hx, bind_S. eexists. split; [done|]. right. destruct (N.leb_spec t x) as [Hle|Hlt]; cbn [fst snd].
    + exists i. split; [done|]. split; [lia|]. split; [done|]. split; [|intros; lia]. intros j y Hj Hy. destruct (decide (j = i)) as [-> |Hji]; [rewrite Hx in Hy; injection Hy as ->; lia|].
      destruct H as [[-> _]|(a & _ & _ & _ & H & _)]; [lia|]. cbn in H. pose proof (H j y ltac:(lia) Hy). lia.
    + destruct H as [[-> [= -> ->]]|(a & Ha & Hai & Hat & H & Hl)]; [lia|]. cbn in *. exists a. split; [done|]. split; [lia|]. split; [done|]. split.
      * intros j y Hj Hy. destruct (decide (j = i)) as [-> |Hji]; [rewrite Hx in Hy; injection Hy as ->; lia|]. apply (H j); [lia|done].
      * intros j Hj. destruct (decide (j = i)) as [-> |Hji]; [rewrite Hx; intros [= ->]; lia|]. apply Hl. lia.
  - rewrite bind_S. cbv beta iota. destruct H as [[H _]|(a & Ha & Hai & Hat & H & Hl)]. { destruct time; [done|cbn in H; lia]. }
    cbn in *. subst m. exists a, t. split; [done|]. split; [done|]. split.
    + intros i x Hi. apply (H i); [by eapply lookup_lt_Some|done].
    + intros i Hi E. apply (Hl i); [|done]. split; [done|]. by eapply lookup_lt_Some.
Qed.

(** ** The arrays *)
Lemma fill_ways_spec {D} garbage wm ways (file : list (element D tag_list)) speeds names : numbers wm ways -> StronglySorted lt ways -> NoDup (way_ids file) -> length speeds = length ways -> length names = length ways ->
  (forall id ns tags, EWay id ns tags ∈ file -> id ∈ ways -> is_Some (get_osm_way_speed garbage tags)) ->
  exists speeds' names', fill_ways garbage wm file (speeds, names) = Some (speeds', names') /\ length speeds' = length ways /\ length names' = length ways /\
    forall id ns tags, EWay id ns tags ∈ file -> id ∈ ways -> exists v, get_osm_way_speed garbage tags = Some v /\ speeds' !! OsmGraphSpec.rank ways id = Some v /\ names' !! OsmGraphSpec.rank ways id = Some (get_osm_way_name tags).
Proof.
  intros Hn Hs Hnd Hl1 Hl2 Hv. unfold fill_ways.
  match goal with |- context [for_each ?l ?body ?init] =>
    destruct (for_each_inv (fun pre (st : list N * list cstring) => length st.1 = length ways /\ length st.2 = length ways /\ forall id ns tags, EWay id ns tags ∈ pre -> id ∈ ways ->
      exists v, get_osm_way_speed garbage tags = Some v /\ st.1 !! OsmGraphSpec.rank ways id = Some v /\ st.2 !! OsmGraphSpec.rank ways id = Some (get_osm_way_name tags)) body l init) as ([sp nm] & E & H1 & H1' & H2) end.
  - split; [done|]. split; [done|]. intros id ns tags H. by apply elem_of_nil in H.
  - intros pre e post [sp nm] Hsplit (H1 & H1' & H2). cbn in H1, H1'. assert (forall x, x ∈ pre ++ [e] -> x ∈ file) as Hin.
    { intros x Hx. apply ordered_read_elem. rewrite Hsplit. apply elem_of_app in Hx as [Hx|Hx%elem_of_list_singleton]; apply elem_of_app; [by left|right; subst; by left]. }
    destruct e as [|id ns tags|].
    + eexists. split; [done|]. split; [done|]. split; [done|]. intros id' ns' tags' [Hq|Hq%elem_of_list_singleton]%elem_of_app Hid9; [by eapply H2|done].
    + rewrite (nu_local_or _ _ Hn), bind_S. case_bool_decide as Hid.
      * destruct (Hv id ns tags) as [v Ev]; [apply Hin; apply elem_of_app; right; by left|done|]. rewrite Ev, bind_S. pose proof (rank_lt ways id Hid) as Hrk. rewrite (wr_Some sp) by lia. rewrite bind_S. rewrite (wr_Some nm) by lia. rewrite bind_S.
        eexists. split; [done|]. cbn. split; [by rewrite insert_length|]. split; [by rewrite insert_length|]. intros id' ns' tags' H Hid'. destruct (decide (id' = id)) as [-> |Hne].
        -- destruct (way_unique file id ns tags ns' tags') as [_ <-]; [done|apply Hin; apply elem_of_app; right; by left|by apply Hin|]. exists v. split; [done|]. split; apply list_lookup_insert; lia.
        -- apply elem_of_app in H as [H| H%elem_of_list_singleton]; [|congruence]. destruct (H2 id' ns' tags' H Hid') as (v' & Ev' & Hv1 & Hv2). exists v'. split; [done|].
           assert (OsmGraphSpec.rank ways id <> OsmGraphSpec.rank ways id') as Hr. { intros Hr. apply Hne. assert (ways !! OsmGraphSpec.rank ways id = Some id) as E1 by (by apply rank_lookup). assert (ways !! OsmGraphSpec.rank ways id' = Some id') as E2 by (by apply rank_lookup). rewrite Hr in E1. congruence. }
           split; by rewrite list_lookup_insert_ne.
      * eexists. split; [done|]. split; [done|]. split; [done|]. intros id' ns' tags' [Hq|Hq%elem_of_list_singleton]%elem_of_app Hid9; [by eapply H2|]. congruence.
    + eexists. split; [done|]. split; [done|]. split; [done|]. intros id' ns' tags' [Hq|Hq%elem_of_list_singleton]%elem_of_app Hid9; [by eapply H2|done].
  - exists sp, nm. split; [done|]. split; [done|]. split; [done|]. intros id ns tags H. apply (H2 id ns tags). by apply ordered_read_elem.
Qed.
Lemma extract_times_eq n dist way sp : n = length dist -> extract_times n dist way sp = travel_times dist way sp.
Proof. by intros ->. Qed.
Lemma name_spec tags : way_name tags (get_osm_way_name tags).
Proof.
  unfold way_name, get_osm_way_name.
  destruct (get tags "name") as [n|] eqn:E1, (get tags "ref") as [r|] eqn:E2.
  - left. exists n, r. by apply get_spec in E1, E2.
  - right. left. by apply get_spec in E1; apply get_none in E2.
  - right. right. left. by apply get_none in E1; apply get_spec in E2.
  - do 3 right. by apply get_none in E1, E2.
Qed.
