(** The scan of an OSM file finds the sets of the specification (C48). *)
From Verif Require Import Base BitVectorModel BitVectorSpec BitVectorProofs BitVectorBulkProofs OsmGraphModel OsmGraphSpec.
Ltac Zify.zify_post_hook ::= idtac.

Lemma nth_resized l n x : length l <= n -> nth x (resized l n false) false = nth x l false.
Proof.
  intros Hn. unfold resized. rewrite take_ge by lia. destruct (decide (x < length l)).
  - by rewrite app_nth1.
  - rewrite app_nth2 by lia. rewrite (nth_overflow l) by lia.
    rewrite nth_lookup. destruct (_ !! _) as [b|] eqn:E; [|done]. cbn. apply lookup_replicate in E as [-> _]. done.
Qed.

Lemma set_rep_empty : set_rep bv_empty (fun _ => False).
Proof.
  exists []. split; [|intros x; split; [destruct x; cbn; congruence|done]].
  apply rep_empty.
Qed.

Lemma set_rep_iff v P Q : set_rep v P -> (forall x, P x <-> Q x) -> set_rep v Q.
Proof. intros (l & Hl & Hb) HQ. exists l. split; [done|]. intros x. by rewrite Hb. Qed.

Lemma large_rep v P x : set_rep v P -> exists v' l, bv_large_enough v x false = Some v' /\ bv_rep v' l /\ x < length l /\ (forall y, nth y l false = true <-> P y).
Proof.
  intros (l & Hl & Hb). destruct (large_enough_spec v l x false Hl) as (k & Hk & _ & H3).
  destruct H3 as (v' & E & Hv'). { left. unfold resize_ok. tauto. }
  exists v'. case_decide as Hc.
  - exists (resized l (2 ^ k) false). split; [done|]. split; [done|]. split.
    + unfold resized. rewrite app_length, take_length, replicate_length. lia.
    + intros y. rewrite nth_resized by lia. apply Hb.
  - exists l. split; [done|]. split; [done|]. split; [lia|done].
Qed.

Lemma set_of_rep v l P x : bv_rep v l -> x < length l -> (forall y, nth y l false = true <-> P y) ->
  exists v', bv_set v x = Some v' /\ set_rep v' (fun y => P y \/ y = x).
Proof.
  intros Hl Hx Hb. destruct (op_spec v l (OSet x) Hl Hx) as (v' & E & Hv'). exists v'. split; [done|].
  eexists. split; [exact Hv'|]. intros y. unfold op_list. cbn [op_index op_value].
  destruct (decide (y = x)) as [-> |Hne].
  - rewrite (nth_lookup (<[x:=true]> l)), list_lookup_insert by done. cbn. naive_solver.
  - rewrite nth_lookup, list_lookup_insert_ne, <- nth_lookup by done. rewrite Hb. naive_solver.
Qed.

Lemma mark_rep v P x : set_rep v P -> exists v', mark v x = Some v' /\ set_rep v' (fun y => P y \/ y = x).
Proof.
  intros H. destruct (large_rep v P x H) as (v1 & l & E & Hl & Hx & Hb). unfold mark. rewrite E, bind_S. by apply (set_of_rep v1 l).
Qed.

Section scan.
Context {D T : Type} (pred : option (nat -> T -> bool)) (used : nat -> T -> bool) (all : bool).
Local Notation file := (list (element D T)).
Local Notation occ l x := (count_occ Nat.eq_dec l x).

(** The sets while a way is being read: [done] are its nodes so far. *)
Definition M (pre : file) (done : list nat) (y : nat) : Prop := declared pred pre y \/ y ∈ way_nodes used pre \/ y ∈ done.
Definition R (pre : file) (done : list nat) (y : nat) : Prop :=
  if all then M pre done y
  else declared pred pre y \/ way_end used pre y \/ 2 <= occ (way_nodes used pre ++ done) y.

Lemma occ_pos l y : y ∈ l <-> 1 <= occ l y.
Proof. rewrite elem_of_list_In. rewrite (count_occ_In Nat.eq_dec). lia. Qed.

Lemma occ_snoc (l done : list nat) x y : occ (l ++ done ++ [x]) y = occ (l ++ done) y + if decide (y = x) then 1 else 0.
Proof.
  rewrite app_assoc, count_occ_app. cbn. destruct (Nat.eq_dec x y), (decide (y = x)); subst; try done; lia.
Qed.

Lemma scan_node_step pre done x md rt :
  set_rep md (M pre done) -> set_rep rt (R pre done) ->
  exists md' rt', (if all then scan_way_node_all else scan_way_node) x (md, rt) = Some (md', rt') /\
    set_rep md' (M pre (done ++ [x])) /\ set_rep rt' (R pre (done ++ [x])).
Proof.
  intros Hm Hr. destruct (large_rep md _ x Hm) as (md1 & lm & Em & Hlm & Hx & Hbm).
  destruct (set_of_rep md1 lm _ x Hlm Hx Hbm) as (md2 & Em2 & Hm2).
  assert (set_rep md2 (M pre (done ++ [x]))) as Hm2'.
  { eapply set_rep_iff; [exact Hm2|]. intros y. unfold M. rewrite elem_of_app, elem_of_list_singleton. tauto. }
  destruct all eqn:Ea.
  - unfold scan_way_node_all. rewrite Em, bind_S. destruct (large_rep rt _ x Hr) as (rt1 & lr & Er & Hlr & Hxr & Hbr).
    rewrite Er, bind_S. destruct (set_of_rep rt1 lr _ x Hlr Hxr Hbr) as (rt2 & Er2 & Hr2). rewrite Er2, bind_S, Em2, bind_S.
    exists md2, rt2. split; [done|]. split; [done|]. eapply set_rep_iff; [exact Hr2|]. intros y. unfold R, M. rewrite Ea, elem_of_app, elem_of_list_singleton. tauto.
  - unfold scan_way_node. rewrite Em, bind_S. rewrite (is_set_spec md1 lm x Hlm Hx), (nth_lk lm x false Hx), bind_S.
    assert (forall y, R pre (done ++ [x]) y <-> declared pred pre y \/ way_end used pre y \/ 2 <= occ (way_nodes used pre ++ done) y + if decide (y = x) then 1 else 0) as HR.
    { intros y. unfold R. rewrite Ea, occ_snoc. done. }
    assert (forall y, R pre done y <-> declared pred pre y \/ way_end used pre y \/ 2 <= occ (way_nodes used pre ++ done) y) as HR0.
    { intros y. unfold R. by rewrite Ea. }
    assert (M pre done x <-> declared pred pre x \/ 1 <= occ (way_nodes used pre ++ done) x) as HM.
    { unfold M. rewrite <- occ_pos, elem_of_app. tauto. }
    destruct (nth x lm false) eqn:Eb.
    + apply Hbm in Eb. destruct (mark_rep rt _ x Hr) as (rt2 & Er2 & Hr2). rewrite Er2, bind_S. exists md1, rt2. split; [done|]. split.
      * exists lm. split; [done|]. intros y. rewrite Hbm. unfold M. rewrite elem_of_app, elem_of_list_singleton. unfold M in Eb. naive_solver.
      * eapply set_rep_iff; [exact Hr2|]. intros y. rewrite HR, HR0. apply HM in Eb. case_decide as Hy; [subst y|].
        -- destruct Eb as [Eb|Eb]; [tauto|]. split; [|tauto]. intros _. right. right. lia.
        -- rewrite Nat.add_0_r. naive_solver.
    + assert (~ M pre done x) as Hn by (rewrite <- Hbm; congruence). rewrite Em2, bind_S. exists md2, rt. split; [done|]. split; [done|].
      eapply set_rep_iff; [exact Hr|]. intros y. rewrite HR, HR0. case_decide as Hy; [subst y|by rewrite Nat.add_0_r].
      rewrite HM in Hn. split; [|intros [?|[?|?]]; [tauto|tauto|lia]]. intros [?|[?|?]]; [tauto|tauto|lia].
Qed.

Lemma scan_nodes pre nodes md rt :
  set_rep md (M pre []) -> set_rep rt (R pre []) ->
  exists md' rt', for_each nodes (if all then scan_way_node_all else scan_way_node) (md, rt) = Some (md', rt') /\
    set_rep md' (M pre nodes) /\ set_rep rt' (R pre nodes).
Proof.
  intros Hm Hr.
  destruct (for_each_inv (fun done (s : bitvec * bitvec) => set_rep s.1 (M pre done) /\ set_rep s.2 (R pre done)) (if all then scan_way_node_all else scan_way_node) nodes (md, rt))
    as ([md' rt'] & E & H1 & H2); [done| |by exists md', rt'].
  intros done x post [md1 rt1] _ [H1 H2]. destruct (scan_node_step pre done x md1 rt1 H1 H2) as (md2 & rt2 & E & H3 & H4). by exists (md2, rt2).
Qed.

(** ** Whole files *)
Lemma used_ways_snoc (pre : file) e : used_ways used (pre ++ [e]) = used_ways used pre ++ element_ways used e.
Proof. unfold used_ways. rewrite flat_map_app. cbn. by rewrite app_nil_r. Qed.
Lemma way_nodes_snoc (pre : file) e : way_nodes used (pre ++ [e]) = way_nodes used pre ++ flat_map snd (element_ways used e).
Proof. unfold way_nodes. by rewrite used_ways_snoc, flat_map_app. Qed.
Lemma declared_snoc (pre : file) e x : declared pred (pre ++ [e]) x <->
  declared pred pre x \/ exists p lat lon tags, pred = Some p /\ e = ENode x lat lon tags /\ p x tags = true.
Proof.
  unfold declared. split.
  - intros (p & la & lo & t & Hp & He & Ht). rewrite elem_of_app, elem_of_list_singleton in He. destruct He as [He|He]; [left|right]; exists p, la, lo, t; by split_and!.
  - intros [(p & la & lo & t & Hp & He & Ht)|(p & la & lo & t & Hp & He & Ht)]; exists p, la, lo, t; rewrite elem_of_app, elem_of_list_singleton; split_and!; naive_solver.
Qed.

Definition scanned (pre : file) (m : id_mapping) : Prop :=
  set_rep (is_modelling_node m) (modelling pred used pre) /\
  set_rep (is_routing_node m) (routing pred used all pre) /\
  set_rep (is_routing_way m) (is_way_of used pre).

Lemma scan_element_step pre e m : scanned pre m -> exists m', scan_element pred used all e m = Some m' /\ scanned (pre ++ [e]) m'.
Proof.
  intros (Hm & Hr & Hw). destruct m as [md rt wy]. cbn [is_modelling_node is_routing_node is_routing_way] in *.
  (* an element that changes nothing *)
  assert (element_ways used e = [] -> (forall x, declared pred (pre ++ [e]) x <-> declared pred pre x) -> scanned (pre ++ [e]) (mkMapping md rt wy)) as Hsame.
  { intros He Hd. assert (used_ways used (pre ++ [e]) = used_ways used pre) as Eu by (rewrite used_ways_snoc, He; apply app_nil_r).
    assert (way_nodes used (pre ++ [e]) = way_nodes used pre) as En by (unfold way_nodes; by rewrite Eu).
    split; [|split]; cbn [is_modelling_node is_routing_node is_routing_way].
    - eapply set_rep_iff; [exact Hm|]. intros x. unfold modelling. by rewrite Hd, En.
    - eapply set_rep_iff; [exact Hr|]. intros x. unfold routing, modelling, way_end. rewrite En, Eu. destruct all; by rewrite Hd.
    - eapply set_rep_iff; [exact Hw|]. intros x. unfold is_way_of. by rewrite Eu. }
  destruct e as [id la lo tags|id nodes tags|id ms tags]; cbn [scan_element].
  - unfold scan_node. destruct pred as [p|] eqn:Ep.
    + destruct (p id tags) eqn:Et.
      * cbn [is_modelling_node is_routing_node is_routing_way].
        destruct (mark_rep md _ id Hm) as (md' & -> & Hm'). rewrite bind_S. destruct (mark_rep rt _ id Hr) as (rt' & -> & Hr'). rewrite bind_S.
        eexists. split; [done|]. rewrite <- Ep in *.
        assert (forall x, declared pred (pre ++ [ENode id la lo tags]) x <-> declared pred pre x \/ x = id) as Hd.
        { intros x. rewrite declared_snoc. split.
          - intros [?|(p' & la' & lo' & t' & Hp & He & Ht)]; [by left|]. right. congruence.
          - intros [?| ->]; [by left|]. right. by exists p, la, lo, tags. }
        split; [|split]; cbn [is_modelling_node is_routing_node is_routing_way].
        -- eapply set_rep_iff; [exact Hm'|]. intros x. unfold modelling. rewrite Hd, way_nodes_snoc. cbn. rewrite app_nil_r. tauto.
        -- eapply set_rep_iff; [exact Hr'|]. intros x. unfold routing, modelling, way_end. rewrite way_nodes_snoc, used_ways_snoc. cbn. rewrite !app_nil_r. destruct all; rewrite Hd; tauto.
        -- eapply set_rep_iff; [exact Hw|]. intros x. unfold is_way_of. rewrite used_ways_snoc. cbn. by rewrite app_nil_r.
      * eexists. split; [done|]. apply Hsame; [done|]. intros x. rewrite <- Ep, declared_snoc. split; [|by left].
        intros [?|(p' & la' & lo' & t' & Hp & He & Ht)]; [done|]. congruence.
    + eexists. split; [done|]. apply Hsame; [done|]. intros x. rewrite <- Ep, declared_snoc. split; [|by left].
      intros [?|(p' & la' & lo' & t' & Hp & He & Ht)]; [done|]. congruence.
  - unfold scan_way. assert (forall x, declared pred (pre ++ [EWay id nodes tags]) x <-> declared pred pre x) as Hd.
    { intros x. rewrite declared_snoc. split; [|by left]. intros [?|(p' & la' & lo' & t' & Hp & He & Ht)]; [done|congruence]. }
    destruct (bool_decide (2 <= length nodes) && used id tags) eqn:Eu.
    + assert (element_ways used (EWay (D := D) id nodes tags) = [(id, nodes)]) as Ew by (cbn; by rewrite Eu).
      assert (2 <= length nodes) as Hlen by (apply andb_true_iff in Eu as [Eu _]; by apply bool_decide_eq_true in Eu).
      assert (way_nodes used (pre ++ [EWay id nodes tags]) = way_nodes used pre ++ nodes) as En by (rewrite way_nodes_snoc, Ew; cbn; by rewrite app_nil_r).
      cbn [is_modelling_node is_routing_node is_routing_way].
      destruct (mark_rep wy _ id Hw) as (wy' & -> & Hw'). rewrite bind_S.
      destruct (scan_nodes pre nodes md rt) as (md1 & rt1 & -> & Hm1 & Hr1).
      { eapply set_rep_iff; [exact Hm|]. intros x. unfold modelling, M. pose proof (not_elem_of_nil x). tauto. }
      { eapply set_rep_iff; [exact Hr|]. intros x. unfold routing, R, modelling, M. rewrite app_nil_r. pose proof (not_elem_of_nil x). destruct all; tauto. }
      rewrite bind_S. destruct (head nodes) as [front|] eqn:Ef; [|destruct nodes; cbn in *; [lia|done]]. rewrite bind_S.
      destruct (last nodes) as [back|] eqn:Eb; [|apply last_None in Eb; subst nodes; cbn in *; lia]. rewrite bind_S.
      assert (front ∈ nodes) as Hfi by (apply head_Some_elem_of; done).
      assert (back ∈ nodes) as Hbi by (by apply last_Some_elem_of).
      assert (forall x, x ∈ nodes -> bv_is_set md1 x = Some true) as Hset.
      { destruct Hm1 as (lm & Hlm & Hb). intros x Hx. assert (nth x lm false = true) as Hbx by (apply Hb; unfold M; tauto).
        assert (x < length lm). { destruct (decide (x < length lm)); [done|]. rewrite nth_overflow in Hbx by lia. done. }
        rewrite (is_set_spec md1 lm x Hlm), (nth_lk lm x false), Hbx by done. done. }
      rewrite (Hset front Hfi), bind_S. cbn [chk]. rewrite bind_S. rewrite (Hset back Hbi), bind_S. cbn [chk]. rewrite bind_S.
      assert (set_rep md1 (modelling pred used (pre ++ [EWay id nodes tags]))) as Hm1'.
      { eapply set_rep_iff; [exact Hm1|]. intros x. unfold M, modelling. by rewrite Hd, En, elem_of_app. }
      assert (set_rep wy' (is_way_of used (pre ++ [EWay id nodes tags]))) as Hw1'.
      { eapply set_rep_iff; [exact Hw'|]. intros x. unfold is_way_of. rewrite used_ways_snoc, Ew. split.
        - intros [(ns & Hns)| ->]; [exists ns; rewrite elem_of_app; by left|exists nodes; rewrite elem_of_app, elem_of_list_singleton; by right].
        - intros (ns & Hns). rewrite elem_of_app, elem_of_list_singleton in Hns. destruct Hns as [?|?]; [left; by exists ns|right; congruence]. }
      destruct all eqn:Ea.
      * eexists. split; [done|]. split; [done|]. split; [|done]. cbn [is_routing_node]. eapply set_rep_iff; [exact Hr1|].
        intros x. unfold R, M, routing, modelling. by rewrite Ea, Hd, En, elem_of_app.
      * destruct (mark_rep rt1 _ front Hr1) as (rt2 & -> & Hr2). rewrite bind_S. destruct (mark_rep rt2 _ back Hr2) as (rt3 & -> & Hr3). rewrite bind_S.
        eexists. split; [done|]. split; [done|]. split; [|done]. cbn [is_routing_node]. eapply set_rep_iff; [exact Hr3|].
        intros x. cbn beta. unfold R, routing. rewrite Ea, Hd, En.
        assert (way_end used (pre ++ [EWay id nodes tags]) x <-> way_end used pre x \/ x = front \/ x = back) as He; [|tauto].
        unfold way_end. rewrite used_ways_snoc, Ew. split.
        -- intros (i & ns & Hi & Hx). rewrite elem_of_app, elem_of_list_singleton in Hi. destruct Hi as [Hi|Hi]; [left; by exists i, ns|]. simplify_eq. right. rewrite Ef, Eb in Hx. naive_solver.
        -- intros [(i & ns & Hi & Hx)|Hx]; [exists i, ns; rewrite elem_of_app; split; [by left|done]|].
           exists id, nodes. rewrite elem_of_app, elem_of_list_singleton. split; [by right|]. rewrite Ef, Eb. naive_solver.
    + eexists. split; [done|]. apply Hsame; [|done]. cbn. by rewrite Eu.
  - eexists. split; [done|]. apply Hsame; [done|]. intros x. rewrite declared_snoc. split; [|by left].
    intros [?|(p' & la' & lo' & t' & Hp & He & Ht)]; [done|congruence].
Qed.

Lemma scan_file f : exists m, load_osm_id_mapping pred used all f = Some m /\ scanned f m.
Proof.
  unfold load_osm_id_mapping. apply for_each_inv.
  - pose proof set_rep_empty as He. split; [|split]; cbn [is_modelling_node is_routing_node is_routing_way].
    + eapply set_rep_iff; [exact He|]. intros x. unfold modelling, declared. cbn. split; [done|]. intros [(p & la & lo & t & _ & H & _)|H]; by apply elem_of_nil in H.
    + eapply set_rep_iff; [exact He|]. intros x. unfold routing, modelling, declared, way_end. cbn. split; [done|].
      destruct all; [intros [(p & la & lo & t & _ & H & _)|H]; by apply elem_of_nil in H|].
      intros [(p & la & lo & t & _ & H & _)|[(i & ns & H & _)|H]]; [by apply elem_of_nil in H|by apply elem_of_nil in H|lia].
    + eapply set_rep_iff; [exact He|]. intros x. unfold is_way_of. cbn. split; [done|]. intros (ns & H). by apply elem_of_nil in H.
  - intros pre x post s _ Hs. by apply scan_element_step.
Qed.

Lemma routing_modelling (f : file) x : routing pred used all f x -> modelling pred used f x.
Proof.
  unfold routing. destruct all; [done|]. intros [H|[(i & ns & Hi & Hx)|H]]; [by left| |].
  - right. unfold way_nodes. apply elem_of_list_In, in_flat_map. exists (i, ns). split; [by apply elem_of_list_In|]. cbn. apply elem_of_list_In.
    destruct Hx as [Hx|Hx]; [by apply head_Some_elem_of|by apply last_Some_elem_of].
  - right. apply occ_pos. lia.
Qed.

Lemma flat_map_Permutation {A B} (g : A -> list B) l k : l ≡ₚ k -> flat_map g l ≡ₚ flat_map g k.
Proof.
  induction 1 as [|x l k _ IH|x y l|l k n _ IH1 _ IH2]; cbn; [done|by rewrite IH|by rewrite !app_assoc, (Permutation_app_comm (g y))|by rewrite IH1].
Qed.

Lemma spec_order (f g : file) : f ≡ₚ g -> forall x,
  (modelling pred used f x <-> modelling pred used g x) /\ (routing pred used all f x <-> routing pred used all g x) /\ (is_way_of used f x <-> is_way_of used g x).
Proof.
  intros H x. assert (used_ways used f ≡ₚ used_ways used g) as Hu by (by apply flat_map_Permutation).
  assert (way_nodes used f ≡ₚ way_nodes used g) as Hn by (by apply flat_map_Permutation).
  assert (declared pred f x <-> declared pred g x) as Hd.
  { unfold declared. split; intros (p & la & lo & t & Hp & He & Ht); exists p, la, lo, t; split_and!; [done| |done|done| |done]; [by rewrite <- H|by rewrite H]. }
  assert (modelling pred used f x <-> modelling pred used g x) as Hm by (unfold modelling; by rewrite Hd, Hn).
  split; [done|]. split.
  - unfold routing. destruct all; [done|].
    assert (way_end used f x <-> way_end used g x) as He.
    { unfold way_end. split; intros (i & ns & Hi & Hx); exists i, ns; (split; [|done]); [by rewrite <- Hu|by rewrite Hu]. }
    assert (occ (way_nodes used f) x = occ (way_nodes used g) x) as Ho by (by apply Permutation_count_occ).
    by rewrite Hd, He, Ho.
  - unfold is_way_of. split; intros (ns & Hi); exists ns; [by rewrite <- Hu|by rewrite Hu].
Qed.
End scan.

(** The loop of make_large_enough_for. *)
Lemma grow64_diverges fuel n x : (2 ^ 63 <= x < 2 ^ 64)%N -> (n = 0 \/ exists k, n = 2 ^ k /\ k <= 63)%N -> grow64 fuel n x = None.
Proof.
  intros Hx. revert n. induction fuel as [|fuel IH]; intros n Hn; cbn.
  - assert (n <= x)%N as Hle. { destruct Hn as [-> |(k & -> & Hk)]; [lia|]. pose proof (N.pow_le_mono_r 2 k 63). lia. }
    apply N.leb_le in Hle. by rewrite Hle.
  - assert (n <= x)%N as Hle. { destruct Hn as [-> |(k & -> & Hk)]; [lia|]. pose proof (N.pow_le_mono_r 2 k 63). lia. }
    apply N.leb_le in Hle. rewrite Hle. apply IH. destruct Hn as [-> |(k & -> & Hk)]; [by left|].
    rewrite N.shiftl_mul_pow2. destruct (decide (k = 63)%N) as [-> |Hne].
    + left. vm_compute. reflexivity.
    + right. exists (k + 1)%N. rewrite N.pow_add_r, N.mod_small; [split; [done|lia]|].
      change (2 ^ 1)%N with 2%N. pose proof (N.pow_le_mono_r 2 k 62). assert (2 ^ 62 * 2 < 2 ^ 64)%N by (vm_compute; reflexivity). lia.
Qed.
Lemma grow64_ends fuel n x k : (x < 2 ^ 63)%N -> n = (2 ^ k)%N -> (k <= 63)%N -> (63 - N.to_nat k <= fuel) -> exists j, grow64 fuel n x = Some (2 ^ j)%N /\ (x < 2 ^ j)%N /\ (j <= 63)%N.
Proof.
  intros Hx. revert n k. induction fuel as [|fuel IH]; intros n k -> Hk Hf; cbn.
  - assert (k = 63)%N as -> by lia. destruct (2 ^ 63 <=? x)%N eqn:E; [apply N.leb_le in E; lia|]. by exists 63%N.
  - destruct (2 ^ k <=? x)%N eqn:E.
    + apply N.leb_le in E. assert (k <> 63)%N by (intros ->; lia).
      destruct (IH (N.shiftl (2 ^ k) 1 mod 2 ^ 64)%N (k + 1)%N) as (j & Ej & Hj); [|lia|lia|by exists j].
      rewrite N.shiftl_mul_pow2, N.pow_add_r, N.mod_small; [done|]. change (2 ^ 1)%N with 2%N. pose proof (N.pow_le_mono_r 2 k 62). assert (2 ^ 62 * 2 < 2 ^ 64)%N by (vm_compute; reflexivity). lia.
    + apply N.leb_gt in E. by exists k.
Qed.
