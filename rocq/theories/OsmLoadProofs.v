(** Reading the whole file and building the graph (C49). *)
From Verif Require Import Base UtilSpec GraphSpec BitVectorModel BitVectorSpec BitVectorProofs BitVectorBulkProofs IdMapperModel PermutationModel PermutationProofs OsmGraphModel OsmGraphSpec OsmIdProofs OsmBuildProofs OsmSortProofs.
Ltac Zify.zify_post_hook ::= idtac.

Lemma for_each_app' {A S} (l k : list A) (f : A -> S -> option S) s : for_each (l ++ k) f s = (s ← for_each l f s; for_each k f s).
Proof. revert s. induction l as [|a l IH]; intros s; [done|]. cbn. destruct (f a s); [|done]. apply IH. Qed.

(** ** The routing nodes among the modelling nodes *)
Lemma select_filter {A} (P : nat -> Prop) `{forall x, Decision (P x)} (f : nat -> A) l :
  select (fun b => b) (map (fun x => bool_decide (P x)) l) (map f l) = map f (filter P l).
Proof.
  induction l as [|a l IH]; [done|]. rewrite filter_cons. cbn [map select]. rewrite IH. case_decide; [by rewrite bool_decide_true|by rewrite bool_decide_false].
Qed.
Lemma filter_sub (a b : list nat) : StronglySorted lt a -> StronglySorted lt b -> (forall x, x ∈ a -> x ∈ b) -> filter (fun x => x ∈ a) b = a.
Proof.
  intros Ha Hb H. apply sorted_lt_unique; [by apply filter_sorted|done|]. intros x. rewrite elem_of_list_filter. naive_solver.
Qed.

Lemma routing_among_spec mm rm mids rids : numbers mm mids -> numbers rm rids -> StronglySorted lt mids -> StronglySorted lt rids -> (forall x, x ∈ rids -> x ∈ mids) ->
  routing_among_modelling mm rm = Some (map (fun x => bool_decide (x ∈ rids)) mids).
Proof.
  intros Hmm Hrm Hms Hrs Hsub. unfold routing_among_modelling. rewrite (nu_count _ _ Hmm), (nu_count _ _ Hrm).
  destruct (new_spec (length mids) false) as (v & -> & Hv & _). rewrite bind_S.
  match goal with |- context [for_range 0 _ ?body ?init] =>
    destruct (for_range_inv (fun r v => exists l, bv_rep v l /\ length l = length mids /\ forall k x, mids !! k = Some x -> l !! k = Some (bool_decide (x ∈ take r rids))) body 0 (length rids) init) as (v' & -> & l & Hl & Hll & Hb) end.
  - lia.
  - exists (replicate (length mids) false). split; [done|]. split; [apply replicate_length|]. intros k x Hk. rewrite lookup_replicate_2 by (eapply lookup_lt_Some; done). cbn. by rewrite bool_decide_false by apply not_elem_of_nil.
  - intros r v' [_ Hr] (l & Hl & Hll & Hb). destruct (lookup_lt_is_Some_2 rids r Hr) as [x Hx]. rewrite (nu_global _ _ Hrm _ _ Hx), bind_S.
    assert (x ∈ mids) as Hxm by (eapply Hsub, elem_of_list_lookup_2; done). rewrite (nu_local _ _ Hmm _ Hxm), bind_S.
    pose proof (rank_lt _ _ Hxm). destruct (op_spec v' l (OSet (rank mids x)) Hl) as (v'' & Hv'' & Hrep); [cbn; lia|]. exists v''. split; [exact Hv''|].
    eexists. split; [exact Hrep|]. unfold op_list. split; [by rewrite insert_length|]. intros k y Hk. cbn [op_index op_value]. rewrite (take_S_r _ _ _ Hx).
    destruct (decide (k = rank mids x)) as [-> |Hne].
    + rewrite list_lookup_insert by lia. f_equal. symmetry. apply bool_decide_eq_true. apply elem_of_app. right. apply elem_of_list_singleton.
      assert (mids !! rank mids x = Some x) as Hk' by (by apply rank_lookup). congruence.
    + rewrite list_lookup_insert_ne by done. rewrite (Hb _ _ Hk). f_equal. apply bool_decide_ext. rewrite elem_of_app, elem_of_list_singleton. split; [tauto|]. intros [?| ->]; [done|].
      exfalso. apply Hne. symmetry. by apply rank_lookup in Hk as [_ ?].
  - rewrite bind_S. apply mapM_Some. apply Forall2_same_length_lookup_2; [by rewrite seq_length, map_length|].
    intros i x b Hx Hbb. apply lookup_seq in Hx as [-> Hi]. cbn. rewrite (is_set_spec _ _ _ Hl) by lia.
    change (map (fun x => bool_decide (x ∈ rids)) mids) with ((fun x => bool_decide (x ∈ rids)) <$> mids) in Hbb. rewrite list_lookup_fmap in Hbb. destruct (mids !! i) as [y|] eqn:Ey; [|done]. cbn in Hbb. injection Hbb as <-.
    rewrite (Hb _ _ Ey), take_ge by lia. done.
Qed.

Section load.
Context {D F T : Type} (narrow : D -> F) (fzero : F) (dzero : D) (dplus : D -> D -> D) (geo_dist : F -> F -> F -> F -> D) (to_unsigned : D -> N).
Context (geo : road_geometry) (rids wids mids : list nat).
Context (mm rm wm : mapper).
Context (Hmm : numbers mm mids) (Hrm : numbers rm rids) (Hwm : numbers wm wids).
Context (Hms : StronglySorted lt mids) (Hrs : StronglySorted lt rids) (Hws : StronglySorted lt wids).
Context (cb : nat -> nat -> T -> way_direction) (decoder : option (nat -> list member -> T -> list restriction)).
Local Notation element := (element D T).
Local Notation position := (position (D := D) (T := T) narrow fzero).
Local Notation read := (read_element (D := D) (F := F) narrow dzero dplus geo_dist to_unsigned geo mm rm wm cb decoder).
Local Notation inb l := (fun x => bool_decide (x ∈ l)).

Lemma position_nodes (file : list element) x : position (List.filter is_node file) x = position file x.
Proof.
  unfold OsmGraphSpec.position. generalize (fzero, fzero). induction file as [|e file IH]; intros c; [done|]. destruct e; cbn; apply IH.
Qed.
Lemma read_nodes (l : list element) s rs : Forall (fun e => is_node e = true) l ->
  for_each l read (replicate (length mids) fzero, replicate (length mids) fzero, s, rs) =
    Some (map (fun x => (position l x).1) mids, map (fun x => (position l x).2) mids, s, rs).
Proof.
  intros Hl.
  destruct (for_each_inv (fun pre st => st = (map (fun x => (position pre x).1) mids, map (fun x => (position pre x).2) mids, s, rs)) read l
    (replicate (length mids) fzero, replicate (length mids) fzero, s, rs)) as (st & -> & ->); [| |done].
  - cbn. clear. f_equal. f_equal. f_equal; induction mids; cbn; congruence.
  - intros pre e post st El ->. subst l. apply Forall_app in Hl as [_ Hl]. inversion_clear Hl as [|? ? He _]. destruct e as [id la lo tags| |]; [|done..].
    eexists. split; [|reflexivity]. cbn [read_element]. unfold read_node. rewrite (nu_local_or _ _ Hmm), bind_S.
    assert (forall x, position (pre ++ [ENode id la lo tags]) x = if decide (id = x) then (narrow la, narrow lo) else position pre x) as Hpos.
    { intros x. unfold OsmGraphSpec.position. by rewrite foldl_app. }
    destruct (bool_decide (id ∈ mids)) eqn:Eid.
    + apply bool_decide_eq_true in Eid. pose proof (rank_lt _ _ Eid). rewrite (wr_Some (map (fun x => (position pre x).1) mids)) by (rewrite map_length; done). rewrite bind_S.
      rewrite (wr_Some (map (fun x => (position pre x).2) mids)) by (rewrite map_length; done). rewrite ?bind_S. cbv beta iota. rewrite ?bind_S. cbv beta iota.
      assert (forall (p : F * F -> F), <[rank mids id := p (narrow la, narrow lo)]> (map (fun x => p (position pre x)) mids) = map (fun x => p (position (pre ++ [ENode id la lo tags]) x)) mids) as Hins.
      { intros p. apply list_eq. intros k. change (@map nat F) with (@fmap list list_fmap nat F). rewrite list_lookup_fmap. destruct (decide (k = rank mids id)) as [-> |Hne].
        - rewrite list_lookup_insert by (rewrite fmap_length; done). assert (mids !! rank mids id = Some id) as -> by (by apply rank_lookup). cbn. rewrite Hpos, decide_True by done. done.
        - rewrite list_lookup_insert_ne, list_lookup_fmap by done. destruct (mids !! k) as [y|] eqn:Ey; [|done]. cbn. rewrite Hpos, decide_False; [done|]. intros ->. apply rank_lookup in Ey as [_ ?]; [|done]. congruence. }
      pose proof (Hins fst) as H1. pose proof (Hins snd) as H2. cbn [fst snd] in H1, H2. unfold fst, snd in H1, H2 |- *. by rewrite H1, H2.
    + apply bool_decide_eq_false in Eid. rewrite bind_S. cbv beta iota.
      assert (forall (p : F * F -> F), map (fun x => p (position pre x)) mids = map (fun x => p (position (pre ++ [ENode id la lo tags]) x)) mids) as Hsame.
      { intros p. apply map_ext_in. intros x Hx. rewrite Hpos, decide_False; [done|]. intros ->. apply Eid. by apply elem_of_list_In. }
      by rewrite (Hsame fst), (Hsame snd).
Qed.

Lemma read_ways (l : list element) (pos : nat -> F * F) rs : Forall (fun e => is_way e = true) l ->
  ways_ok (inb mids) (inb rids) (inb wids) (rank wids) cb l ->
  exists s, for_each l read (map (fun x => (pos x).1) mids, map (fun x => (pos x).2) mids, mkArcs [] [] [] [] [] [] [] [] [] [], rs) =
      Some (map (fun x => (pos x).1) mids, map (fun x => (pos x).2) mids, s, rs) /\
    rep geo rids wids s (file_arcs dzero dplus geo_dist to_unsigned pos (inb rids) (inb wids) (rank wids) cb l).
Proof.
  intros Hl Hok. set (lat := map (fun x => (pos x).1) mids). set (lon := map (fun x => (pos x).2) mids).
  destruct (for_each_inv (fun pre st => exists s, st = (lat, lon, s, rs) /\ rep geo rids wids s (file_arcs dzero dplus geo_dist to_unsigned pos (inb rids) (inb wids) (rank wids) cb pre) /\ buf geo s []) read l
    (lat, lon, mkArcs [] [] [] [] [] [] [] [] [] [], rs)) as (st & -> & s & -> & Hs & _); [| |by exists s].
  - eexists. split; [done|]. split; [split; cbn; by destruct geo|]. unfold buf. by destruct geo.
  - intros pre e post st El (s & -> & Hs & Hb). assert (e ∈ l) as Hel by (rewrite El; apply elem_of_app; right; left).
    rewrite Forall_forall in Hl. specialize (Hl e Hel). destruct e as [|id nodes tags|]; [done| |done].
    destruct (read_way_rep narrow fzero dzero dplus geo_dist to_unsigned geo rids wids mids mm rm wm Hmm Hrm Hwm Hms pos lat lon eq_refl eq_refl cb id nodes tags s _ Hs Hb) as (s' & Hr & Hs' & Hb').
    { intros id' nodes' tags' He. apply elem_of_list_singleton in He. injection He as -> -> ->. by apply Hok. }
    eexists. split; [cbn [read_element]; rewrite Hr, bind_S; reflexivity|]. exists s'. split; [done|]. split; [|done].
    unfold file_arcs. rewrite flat_map_app. cbn [flat_map]. rewrite app_nil_r. exact Hs'.
Qed.

Lemma read_relations (l : list element) lat lon s rs : Forall (fun e => is_relation e = true) l ->
  for_each l read (lat, lon, s, rs) = Some (lat, lon, s, rs ++ file_restrictions decoder l).
Proof.
  revert rs. induction l as [|e l IH]; intros rs Hl; [by rewrite app_nil_r|]. inversion_clear Hl as [|? ? He Hl']. destruct e as [| |id ms tags]; [done..|].
  cbn [for_each read_element]. rewrite bind_S, IH by done. unfold file_restrictions. cbn [flat_map]. rewrite app_assoc. destruct decoder; [done|by rewrite app_nil_r].
Qed.

Lemma Forall_listfilter {A} (p : A -> bool) l : Forall (fun e => p e = true) (List.filter p l).
Proof. apply Forall_forall. intros x Hx. apply elem_of_list_In, filter_In in Hx. tauto. Qed.
Lemma file_arcs_ways pos R W num (file : list element) : file_arcs dzero dplus geo_dist to_unsigned pos R W num cb (List.filter is_way file) = file_arcs dzero dplus geo_dist to_unsigned pos R W num cb file.
Proof. unfold file_arcs. induction file as [|e file IH]; [done|]. destruct e; cbn [List.filter is_way flat_map]; by rewrite IH. Qed.
Lemma file_restrictions_relations (file : list element) : file_restrictions decoder (List.filter is_relation file) = file_restrictions decoder file.
Proof. unfold file_restrictions. induction file as [|e file IH]; [done|]. destruct e; cbn [List.filter is_relation flat_map]; by rewrite IH. Qed.

Lemma read_file (file : list element) : ways_ok (inb mids) (inb rids) (inb wids) (rank wids) cb file ->
  exists s, for_each (ordered_read file) read (replicate (length mids) fzero, replicate (length mids) fzero, mkArcs [] [] [] [] [] [] [] [] [] [], []) =
      Some (map (fun x => (position file x).1) mids, map (fun x => (position file x).2) mids, s, file_restrictions decoder file) /\
    rep geo rids wids s (file_arcs dzero dplus geo_dist to_unsigned (position file) (inb rids) (inb wids) (rank wids) cb file).
Proof.
  intros Hok. unfold ordered_read. rewrite for_each_app', read_nodes by apply Forall_listfilter. rewrite bind_S.
  rewrite (map_ext (fun x => (position (List.filter is_node file) x).1) (fun x => (position file x).1)) by (intros; by rewrite position_nodes).
  rewrite (map_ext (fun x => (position (List.filter is_node file) x).2) (fun x => (position file x).2)) by (intros; by rewrite position_nodes).
  rewrite for_each_app'. destruct (read_ways (List.filter is_way file) (position file) []) as (s & -> & Hs).
  { apply Forall_listfilter. }
  { intros id nodes tags He. apply elem_of_list_In, filter_In in He as [He%elem_of_list_In _]. by apply Hok. }
  rewrite bind_S, read_relations by apply Forall_listfilter. rewrite file_restrictions_relations. exists s. split; [done|]. by rewrite <- file_arcs_ways.
Qed.
End load.

Section graph.
Context {D F T : Type} (narrow : D -> F) (fzero : F) (dzero : D) (dplus : D -> D -> D) (geo_dist : F -> F -> F -> F -> D) (to_unsigned : D -> N).
Local Notation element := (element D T).
Local Notation inb l := (fun x => bool_decide (x ∈ l)).

Lemma map_lookup {A B} (f : A -> B) l i a : l !! i = Some a -> map f l !! i = Some (f a).
Proof. intros H. change (map f l) with (f <$> l). by rewrite list_lookup_fmap, H. Qed.

Lemma load_arcs asserts (file : list element) m (way_callback : option (nat -> nat -> T -> way_direction)) decoder garg nodes ways mods :
  set_rep (is_modelling_node m) (.∈ mods) -> set_rep (is_routing_node m) (.∈ nodes) -> set_rep (is_routing_way m) (.∈ ways) ->
  StronglySorted lt mods -> StronglySorted lt nodes -> StronglySorted lt ways -> (forall x, x ∈ nodes -> x ∈ mods) ->
  (asserts = true -> mapping_assertion m = Some tt) ->
  let cb := default (fun _ _ _ => OpenBoth) way_callback in
  let geo := extracted_geometry garg (bool_decide (is_Some decoder)) in
  ways_ok (inb mods) (inb nodes) (inb ways) (rank ways) cb file ->
  exists g mm rm wm, load_osm_arcs narrow fzero dzero dplus geo_dist to_unsigned asserts file m way_callback decoder garg = Some (g, mm, rm, wm, file_restrictions decoder file) /\
    numbers mm mods /\ numbers rm nodes /\ numbers wm ways /\
    csr (length nodes) (g_first_out g) (g_head g) /\ heads_sorted (g_first_out g) (g_head g) /\
    (forall i t, g_tail g !! i = Some t -> out_arc (g_first_out g) t i) /\
    g_lat g = map (fun x => (position narrow fzero file x).1) nodes /\ g_lon g = map (fun x => (position narrow fzero file x).2) nodes /\
    (geo = GeoNone -> g_first_m g = [] /\ g_mlat g = [] /\ g_mlon g = []) /\
    exists arcs, arcs ≡ₚ file_arcs dzero dplus geo_dist to_unsigned (position narrow fzero file) (inb nodes) (inb ways) (rank ways) cb file /\
      length (g_tail g) = length arcs /\ length (g_head g) = length arcs /\ length (g_way g) = length arcs /\ length (g_dist g) = length arcs /\ length (g_anti g) = length arcs /\
      forall i a, arcs !! i = Some a -> arc_entry geo nodes ways g i a.
Proof.
  intros Hm Hr Hw Hms Hrs Hws Hsub Hass cb geo Hok. unfold load_osm_arcs.
  assert ((if asserts then mapping_assertion m else Some tt) = Some tt) as -> by (destruct asserts; [by apply Hass|done]). rewrite bind_S. fold geo. fold cb.
  destruct (mapper_numbers _ _ Hm) as (mm & mods' & -> & Em & Hmm). assert (mods' = mods) as -> by (eapply enum_unique; [exact Em|by split]).
  destruct (mapper_numbers _ _ Hr) as (rm & nodes' & -> & Er & Hrm). assert (nodes' = nodes) as -> by (eapply enum_unique; [exact Er|by split]).
  destruct (mapper_numbers _ _ Hw) as (wm & ways' & -> & Ew & Hwm). assert (ways' = ways) as -> by (eapply enum_unique; [exact Ew|by split]).
  rewrite !bind_S. rewrite (nu_count _ _ Hmm).
  destruct (read_file narrow fzero dzero dplus geo_dist to_unsigned geo nodes ways mods mm rm wm Hmm Hrm Hwm Hms cb decoder file Hok) as (s & -> & Hs).
  rewrite bind_S. cbv beta iota. rewrite (nu_count _ _ Hrm).
  destruct (sort_arcs_spec geo nodes ways asserts s _ Hs Hrs) as (E' & fo & s' & -> & HE & Ht & Hh & Hd & Hwy & Han & Hg1 & Hg2 & Hcsr & Hsort & Hout).
  rewrite bind_S. cbv beta iota. rewrite (routing_among_spec mm rm mods nodes Hmm Hrm Hms Hrs Hsub), bind_S.
  unfold keep_element_of_vector_if. rewrite !inplace_filter_correct by (by rewrite !map_length). rewrite !bind_S.
  rewrite !select_filter, (filter_sub nodes mods Hrs Hms Hsub).
  eexists _, mm, rm, wm. split; [done|]. do 3 (split; [done|]). cbn [g_first_out g_tail g_head g_way g_dist g_lat g_lon g_anti g_first_m g_mlat g_mlon].
  do 5 (split; [done|]). split; [intros E; apply Hg2; by rewrite E|].
  exists E'. split; [done|]. rewrite Ht, Hh, Hwy, Hd, Han, !map_length. do 5 (split; [done|]). intros i a Ha. rewrite <- Ht, <- Hh, <- Hwy, <- Hd, <- Han.
  assert (x_tail a ∈ nodes /\ x_head a ∈ nodes /\ x_way a ∈ ways) as (Hta & Hha & Hwa).
  { pose proof (re_ids _ _ _ _ _ Hs) as Hids. rewrite Forall_forall in Hids. apply Hids. rewrite <- HE. eapply elem_of_list_lookup_2; done. }
  split; cbn [g_first_out g_tail g_head g_way g_dist g_lat g_lon g_anti g_first_m g_mlat g_mlon].
  - exists (rank nodes (x_tail a)). split; [by apply rank_lookup|]. rewrite Ht. by apply (map_lookup (fun a => rank nodes (x_tail a))).
  - exists (rank nodes (x_head a)). split; [by apply rank_lookup|]. rewrite Hh. by apply (map_lookup (fun a => rank nodes (x_head a))).
  - exists (rank ways (x_way a)). split; [by apply rank_lookup|]. rewrite Hwy. by apply (map_lookup (fun a => rank ways (x_way a))).
  - rewrite Hd. by apply map_lookup.
  - rewrite Han. by apply map_lookup.
  - intros Hne. destruct Hg1 as (-> & -> & ->); [by destruct geo|].
    assert (geos geo E' !! i = Some (shown geo (x_geo a))) as Hgi by (unfold geos; by apply (map_lookup (fun a => shown geo (x_geo a)))).
    assert (i < length (geos geo E')) by (eapply lookup_lt_Some; done).
    exists (length (concat (take i (geos geo E')))), (length (concat (take (S i) (geos geo E')))).
    rewrite !starts_lookup by lia. split; [done|]. split; [done|].
    destruct (concat_slice _ _ _ Hgi) as (H1 & H2 & H3). rewrite H1, !map_length. split; [lia|]. split; [done|].
    replace (length (concat (take i (geos geo E'))) + length (shown geo (x_geo a)) - length (concat (take i (geos geo E')))) with (length (shown geo (x_geo a))) by lia.
    change (@map (F*F) F) with (@fmap list list_fmap (F*F) F). rewrite <- !fmap_drop, <- !fmap_take, H2. clear. induction (shown geo (x_geo a)) as [|[] l IH]; [done|]. cbn. f_equal. exact IH.
Qed.

End graph.

Section fit.
Context {D T : Type}.
Local Notation element := (element D T).
(** The sets found by the scan of the same file fit. *)
Definition way_ids (file : list element) : list nat := flat_map (fun e => match e with EWay id _ _ => [id] | _ => [] end) file.
Lemma scan_ways_ok (pred : option (nat -> T -> bool)) used all (file : list element) M R W num (cb : nat -> nat -> T -> way_direction) :
  NoDup (way_ids file) ->
  (forall x, M x = true <-> modelling pred used file x) -> (forall x, R x = true <-> routing pred used all file x) -> (forall x, W x = true <-> is_way_of used file x) ->
  ways_ok M R W num cb file.
Proof.
  intros Hnd HM HR HW id nodes tags He Hid _. apply HW in Hid as [nodes' Hu].
  assert ((id, nodes) ∈ used_ways used file /\ 2 <= length nodes) as [Hun Hlen].
  { unfold used_ways in *. apply elem_of_list_In, in_flat_map in Hu as (e & Hin & Hu). destruct e as [|id' ns tags'|]; [done| |done]. cbn [element_ways] in Hu.
    destruct (bool_decide (2 <= length ns) && used id' tags') eqn:E; [|done]. destruct Hu as [Hu|[]]. injection Hu as -> ->.
    assert (EWay (D := D) id nodes' tags' = EWay id nodes tags) as Heq.
    { apply elem_of_list_In in He. clear -Hnd Hin He. induction file as [|e f IH]; [done|]. cbn in Hnd.
      assert (forall ns t, In (EWay (D := D) id ns t) f -> In id (way_ids f)) as Hids. { intros ns t H. unfold way_ids. apply in_flat_map. eexists. split; [exact H|]. by left. }
      destruct Hin as [-> |Hin], He as [He|He].
      - done.
      - cbn in Hnd. inversion_clear Hnd as [|? ? H1 _]. exfalso. apply H1, elem_of_list_In. by eapply Hids.
      - subst e. cbn in Hnd. inversion_clear Hnd as [|? ? H1 _]. exfalso. apply H1, elem_of_list_In. by eapply Hids.
      - apply IH; [|done|done]. by apply NoDup_app in Hnd as (_ & _ & ?). }
    injection Heq as -> ->. split.
    - apply elem_of_list_In, in_flat_map. exists (EWay (D := D) id nodes tags). split; [done|]. cbn. rewrite E. by left.
    - apply andb_true_iff in E as [E _]. by apply bool_decide_eq_true in E. }
  assert (forall x, x ∈ nodes -> modelling pred used file x) as Hmod.
  { intros x Hx. right. unfold way_nodes. apply elem_of_list_In, in_flat_map. exists (id, nodes). split; [by apply elem_of_list_In|by apply elem_of_list_In]. }
  split.
  - destruct (head nodes) as [x|] eqn:Ex; [|by destruct nodes; cbn in *; [lia|]]. destruct (last nodes) as [y|] eqn:Ey; [|apply last_None in Ey; subst; cbn in Hlen; lia].
    exists x, y. split; [done|]. split; [|split; [done|]]; apply HR; unfold routing; destruct all.
    + apply Hmod. by apply head_Some_elem_of.
    + right. left. exists id, nodes. split; [done|]. by left.
    + apply Hmod. by apply last_Some_elem_of.
    + right. left. exists id, nodes. split; [done|]. by right.
  - apply Forall_forall. intros x Hx. by apply HM, Hmod.
Qed.
End fit.

(** ** Where ways are cut *)
Lemma segments_spec R x inner rest s i y : Forall (fun z => R z = false) inner ->
  (s, i, y) ∈ segments R x inner rest <->
    (exists mid post, rest = mid ++ y :: post /\ s = x /\ i = inner ++ mid /\ R y = true /\ Forall (fun z => R z = false) mid) \/
    (exists pre post, rest = pre ++ s :: i ++ y :: post /\ R s = true /\ R y = true /\ Forall (fun z => R z = false) i).
Proof.
  revert x inner. induction rest as [|z rest IH]; intros x inner Hin; cbn [segments].
  - split; [by intros ?%elem_of_nil|]. intros [(mid & post & H & _)|(pre & post & H & _)]; [by destruct mid|by destruct pre].
  - destruct (R z) eqn:Ez.
    + rewrite elem_of_cons, IH by constructor. split.
      * intros [H|[(mid & post & -> & -> & -> & Hy & Hmid)|(pre & post & -> & Hs & Hy & Hi)]].
        -- injection H as -> -> ->. left. exists [], rest. by rewrite app_nil_r.
        -- right. exists [], post. by split_and!.
        -- right. exists (z :: pre), post. by split_and!.
      * intros [(mid & post & H & -> & -> & Hy & Hmid)|(pre & post & H & Hs & Hy & Hi)].
        -- destruct mid as [|w mid]; cbn in H; injection H as -> ->; [left; by rewrite app_nil_r|]. inversion_clear Hmid. congruence.
        -- right. destruct pre as [|w pre]; cbn in H; injection H as -> ->; [left; exists i, post; by split_and!|right; exists pre, post; by split_and!].
    + rewrite IH by (apply Forall_app; split; [done|by constructor]). split.
      * intros [(mid & post & -> & -> & -> & Hy & Hmid)|(pre & post & -> & Hs & Hy & Hi)].
        -- left. exists (z :: mid), post. rewrite <- app_assoc. split_and!; try done. by constructor.
        -- right. exists (z :: pre), post. by split_and!.
      * intros [(mid & post & H & -> & -> & Hy & Hmid)|(pre & post & H & Hs & Hy & Hi)].
        -- destruct mid as [|w mid]; cbn in H; injection H as -> ->; [congruence|]. inversion_clear Hmid. left. exists mid, post. rewrite <- app_assoc. by split_and!.
        -- right. destruct pre as [|w pre]; cbn in H; injection H as -> ->; [congruence|]. exists pre, post. by split_and!.
Qed.
Lemma segments_length R x inner rest : length (segments R x inner rest) = length (filter (fun z => R z = true) rest).
Proof.
  revert x inner. induction rest as [|z rest IH]; intros x inner; [done|]. cbn [segments]. rewrite filter_cons. destruct (R z) eqn:Ez.
  - rewrite decide_True by done. cbn [length]. by rewrite IH.
  - rewrite decide_False by done. by rewrite IH.
Qed.
