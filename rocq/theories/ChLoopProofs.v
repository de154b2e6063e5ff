(** The construction loops contract all nodes, one after the other. *)
From Verif Require Import Base UtilSpec PermutationModel PermutationProofs IdQueueModel IdQueueSpec IdQueueProofs IdSetModel WalkSpec ChGraphModel ChGraphProofs
  ChWitnessProofs ChContractProofs ChHierarchyProofs ChBuildModel.
Ltac Zify.zify_post_hook ::= idtac.

Definition raw_ok (r : rawside) : Prop :=
  length (r_head r) = length (r_tail r) /\ length (r_weight r) = length (r_tail r) /\ length (r_mid r) = length (r_tail r).
Definition raw_arc (r : rawside) : marcs := fun u v w m =>
  exists i, r_tail r !! i = Some u /\ r_head r !! i = Some v /\ r_weight r !! i = Some w /\ r_mid r !! i = Some m.

Lemma raw_ok_empty : raw_ok empty_raw.
Proof. done. Qed.
Lemma raw_arc_empty u v w m : ~ raw_arc empty_raw u v w m.
Proof. intros (i & H & _). done. Qed.

Lemma dump_spec x arcs r : raw_ok r ->
  raw_ok (dump_arcs x arcs r) /\
  forall u v w m, raw_arc (dump_arcs x arcs r) u v w m <-> (u = x /\ exists h, mkGarc v w h m ∈ arcs) \/ raw_arc r u v w m.
Proof.
  intros (H1 & H2 & H3). unfold dump_arcs. split.
  { unfold raw_ok. cbn. rewrite !app_length, !fmap_length, replicate_length. lia. }
  intros u v w m. unfold raw_arc. cbn. split.
  - intros (i & Ht & Hh & Hw & Hm). destruct (decide (i < length (r_tail r))) as [Hi|Hi].
    + right. exists i. rewrite lookup_app_l in Ht by lia. rewrite lookup_app_l in Hh by lia. rewrite lookup_app_l in Hw by lia. rewrite lookup_app_l in Hm by lia. done.
    + left. rewrite lookup_app_r in Ht by lia. rewrite lookup_app_r in Hh by lia. rewrite lookup_app_r in Hw by lia. rewrite lookup_app_r in Hm by lia. rewrite H1 in Hh. rewrite H2 in Hw. rewrite H3 in Hm.
      apply lookup_replicate in Ht as [-> _]. split; [done|]. rewrite list_lookup_fmap in Hh. rewrite list_lookup_fmap in Hw. rewrite list_lookup_fmap in Hm.
      destruct (arcs !! (i - length (r_tail r))) as [a|] eqn:Ha; [|done]. cbn in *. simplify_eq.
      exists (ga_hop a). destruct a. by eapply elem_of_list_lookup_2.
  - intros [[-> (h & [j Hj]%elem_of_list_lookup)]|(i & Ht & Hh & Hw & Hm)].
    + exists (length (r_tail r) + j). pose proof (lookup_lt_Some _ _ _ Hj).
      rewrite !lookup_app_r by lia. rewrite lookup_replicate_2 by lia.
      rewrite H1, H2, H3, !list_lookup_fmap. replace (length (r_tail r) + j - length (r_tail r)) with j by lia. rewrite Hj. done.
    + exists i. split; [|split; [|split]]; by apply lookup_app_l_Some.
Qed.

Lemma func_garcs g : func (garcs g).
Proof. intros u v w m w' m' (h & H) (h' & H'). naive_solver. Qed.
Lemma noloop_garcs n g u w m : gok n g -> ~ garcs g u u w m.
Proof. intros Hg (h & H). by rewrite (gk_noloop n g Hg) in H. Qed.
Lemma outs_garcs n g x outs v w m : gok n g -> g_out g !! x = Some outs -> (exists h, mkGarc v w h m ∈ outs) <-> garcs g x v w m.
Proof.
  intros Hg Ho. unfold garcs. rewrite (fo_lookup _ _ _ _ Ho). split; intros (h & H); exists h; apply lkup_iff; try done; by eapply gk_nd_out.
Qed.
Lemma ins_garcs n g x ins v w m : gok n g -> g_in g !! x = Some ins -> (exists h, mkGarc v w h m ∈ ins) <-> garcs g v x w m.
Proof.
  intros Hg Ho. unfold garcs. rewrite (gk_mirror n g Hg), (fo_lookup _ _ _ _ Ho). split; intros (h & H); exists h; apply lkup_iff; try done; by eapply gk_nd_in.
Qed.

(** Adding the arcs of the node contracted first to a hierarchy of the others. *)
Lemma contr_dump n g g' x zs outs ins f b f1 b1 F B :
  gok n g -> g_out g !! x = Some outs -> g_in g !! x = Some ins -> raw_ok f -> raw_ok b ->
  cstep x (garcs g) (garcs g') -> contr zs (garcs g') F B ->
  (forall u v w m, raw_arc f1 u v w m <-> raw_arc (dump_arcs x outs f) u v w m \/ F u v w m) ->
  (forall u v w m, raw_arc b1 u v w m <-> raw_arc (dump_arcs x ins b) u v w m \/ B u v w m) ->
  exists F' B', contr (x :: zs) (garcs g) F' B' /\
    (forall u v w m, raw_arc f1 u v w m <-> raw_arc f u v w m \/ F' u v w m) /\
    (forall u v w m, raw_arc b1 u v w m <-> raw_arc b u v w m \/ B' u v w m).
Proof.
  intros Hg Ho Hi Hf Hb Hs Hc Hf1 Hb1.
  exists (fun u v w m => (u = x /\ garcs g x v w m) \/ F u v w m), (fun u v w m => (u = x /\ garcs g v x w m) \/ B u v w m).
  split; [|split].
  - econstructor; [apply func_garcs|intros; by eapply noloop_garcs|done|done|done|done].
  - intros u v w m. destruct (dump_spec x outs f Hf) as [_ Hd]. rewrite Hf1, Hd, (outs_garcs n g x outs) by done. naive_solver.
  - intros u v w m. destruct (dump_spec x ins b Hb) as [_ Hd]. rewrite Hb1, Hd, (ins_garcs n g x ins) by done. naive_solver.
Qed.

(** ** With a given rank *)
Lemma given_rank_loop n max_pop (order : list nat) : forall zs i g t f b,
  gok n g -> wtb n t -> raw_ok f -> raw_ok b -> (forall j, zs !! j = order !! (i + j) \/ length zs <= j) -> Forall (fun x => x < n) zs ->
  exists g' t' f' b' F B,
    for_n (length zs) i (fun i '(g, t, f, b) =>
      x ← order !! i;
      outs ← g_out g !! x; ins ← g_in g !! x;
      let f := dump_arcs x outs f in
      let b := dump_arcs x ins b in
      '(g, t) ← contract_node max_pop g t x;
      Some (g, t, f, b)) (g, t, f, b) = Some (g', t', f', b') /\
    raw_ok f' /\ raw_ok b' /\ contr zs (garcs g) F B /\
    (forall u v w m, raw_arc f' u v w m <-> raw_arc f u v w m \/ F u v w m) /\
    (forall u v w m, raw_arc b' u v w m <-> raw_arc b u v w m \/ B u v w m).
Proof.
  induction zs as [|x zs IH]; intros i g t f b Hg Ht Hf Hb Hzs Hlt; cbn [length for_n].
  - exists g, t, f, b, (fun _ _ _ _ => False), (fun _ _ _ _ => False). split; [done|]. split; [done|]. split; [done|]. split; [apply contr_nil; cbn; tauto|].
    split; intros; naive_solver.
  - apply Forall_cons in Hlt as [Hx Hlt].
    destruct (Hzs 0) as [H0|H0]; [|cbn in H0; lia]. rewrite Nat.add_0_r in H0. cbn in H0. rewrite <- H0, bind_S.
    destruct (lookup_lt_is_Some_2 (g_out g) x) as [outs Ho]; [rewrite (gk_out n g Hg); lia|].
    destruct (lookup_lt_is_Some_2 (g_in g) x) as [ins Hi]; [rewrite (gk_in n g Hg); lia|].
    rewrite Ho, bind_S, Hi, bind_S. cbv zeta.
    destruct (contract_node_spec n max_pop g x Hg t Ht Hx) as (g1 & t1 & -> & Hg1 & Ht1 & _ & Hs). rewrite !bind_S.
    destruct (dump_spec x outs f Hf) as [Hf1 _]. destruct (dump_spec x ins b Hb) as [Hb1 _].
    destruct (IH (S i) g1 t1 (dump_arcs x outs f) (dump_arcs x ins b)) as (g' & t' & f' & b' & F & B & E & Hf' & Hb' & Hc & HF & HB); [done..| |done|].
    { intros j. destruct (Hzs (S j)) as [Hj|Hj]; [left; change ((x :: zs) !! S j) with (zs !! j) in Hj; rewrite Hj; f_equal; lia|right; cbn in Hj; lia]. }
    destruct (contr_dump n g g1 x zs outs ins f b f' b' F B) as (F' & B' & Hc' & HF' & HB'); [done..|].
    exists g', t', f', b', F', B'. done.
Qed.

Lemma within_all n g zs : gok n g -> (forall x, x < n -> x ∈ zs) -> within zs (garcs g).
Proof. intros Hg Hz u v w m (h & H). destruct (gok_lt _ _ _ _ _ Hg H) as (? & ? & _). auto. Qed.

Lemma build_ch_given_rank_spec n max_pop g rank :
  gok n g -> perm rank -> length rank = n ->
  exists order f b, build_ch_given_rank max_pop g rank = Some (order, f, b) /\
    inverse_of rank order /\ raw_ok f /\ raw_ok b /\ contr order (garcs g) (raw_arc f) (raw_arc b).
Proof.
  intros Hg Hp Hl. unfold build_ch_given_rank. destruct (invert_permutation_correct rank Hp) as (order & -> & Hinv & Hpo). rewrite bind_S.
  assert (length order = n) as Hlo by (destruct Hinv; lia).
  rewrite (gk_out n g Hg). unfold for_range. rewrite Nat.sub_0_r.
  destruct (given_rank_loop n max_pop order order 0 g (new_wtest n) empty_raw empty_raw) as (g' & t' & f & b & F & B & E & Hf & Hb & Hc & HF & HB).
  - done.
  - apply wtb_new.
  - done.
  - done.
  - intros j. by left.
  - apply Forall_forall. intros x [i Hi]%elem_of_list_lookup. rewrite <- Hlo. by eapply perm_lookup_lt.
  - rewrite Hlo in E. cbv zeta in E. rewrite E, bind_S. exists order, f, b. split; [done|]. split; [done|]. split; [done|]. split; [done|].
    eapply contr_iff; [done| |]; intros u v w m; [rewrite HF|rewrite HB]; pose proof (raw_arc_empty u v w m); naive_solver.
Qed.

(** ** With the queue of node importances *)
Definition flags_of (n : nat) (is : list bool) (ns : list nat) : Prop :=
  length is = n /\ forall y, is !! y = Some true <-> y ∈ ns /\ y < n.

Lemma mark_neighbors_spec n x arcs ns is :
  flags_of n is ns -> (forall a, a ∈ arcs -> ga_node a <> x /\ ga_node a < n) ->
  exists ns' is', mark_neighbors x arcs (ns, is) = Some (ns', is') /\ flags_of n is' ns' /\
    forall y, y ∈ ns' -> y ∈ ns \/ exists a, a ∈ arcs /\ y = ga_node a.
Proof.
  intros Hfl Ha. unfold mark_neighbors.
  match goal with |- context [for_each arcs ?b _] => set (body := b) end.
  destruct (for_each_ok (fun '(ns', is') => flags_of n is' ns' /\ forall y, y ∈ ns' -> y ∈ ns \/ exists a, a ∈ arcs /\ y = ga_node a)
    body arcs (ns, is)) as ([ns' is'] & -> & H1 & H2).
  - split; [done|]. auto.
  - intros a [ns1 is1] Hin [[Hl Hf] Hsub]. destruct (Ha a Hin) as [Hne Hlt]. unfold body. cbv beta iota zeta.
    rewrite bool_decide_eq_true_2 by congruence. cbn [chk]. rewrite bind_S.
    destruct (lookup_lt_is_Some_2 is1 (ga_node a)) as [b Hb]; [lia|]. rewrite Hb, bind_S. destruct b.
    + eexists. split; [done|]. done.
    + rewrite wr_Some, bind_S by lia. eexists. split; [done|]. cbv beta iota. split; [split|].
      * by rewrite insert_length.
      * intros y. rewrite list_lookup_insert_Some, Hf, elem_of_app, elem_of_list_singleton. split.
        -- intros [(<- & _ & ?)|[? [? ?]]]; [split; [by right|lia]|split; [by left|done]].
        -- intros [[Hy| ->] ?].
           ++ right. split; [|done]. intros <-. assert (is1 !! ga_node a = Some true) by (by apply Hf). congruence.
           ++ left. split; [done|]. split; [done|lia].
      * intros y [Hy| ->%elem_of_list_singleton]%elem_of_app; [by apply Hsub|]. right. by exists a.
  - by exists ns', is'.
Qed.

Lemma update_neighbors_spec n max_pop level ns g t q m is :
  gok n g -> wtb n t -> qref n q m -> flags_of n is ns -> (forall y, y ∈ ns -> y ∈ dom m) -> (forall y, y ∈ dom m -> y < n) ->
  exists g' t' q' m', for_each ns (update_neighbor max_pop level) (g, t, q, is) = Some (g', t', q', replicate n false) /\
    gok n g' /\ g_out g' = g_out g /\ wtb n t' /\ qref n q' m' /\ dom m' = dom m.
Proof.
  intros Hg Ht Hq Hf Hns Hlt.
  destruct (for_each_inv (fun pre '(g', t', q', is') => gok n g' /\ g_out g' = g_out g /\ wtb n t' /\ (exists m', qref n q' m' /\ dom m' = dom m) /\
     length is' = n /\ forall y, is' !! y = Some true -> y ∈ ns /\ y ∉ pre) (update_neighbor max_pop level) ns (g, t, q, is))
    as ([[[g' t'] q'] is'] & -> & Hg' & Ho & Ht' & (m' & Hq' & Hd) & Hl & Hfl).
  - split; [done|]. split; [done|]. split; [done|]. split; [by exists m|]. split; [apply Hf|]. intros y Hy. split; [by apply Hf|]. apply not_elem_of_nil.
  - intros pre x post [[[g1 t1] q1] is1] Hsp (Hg1 & Ho1 & Ht1 & (m1 & Hq1 & Hd1) & Hl1 & Hf1).
    assert (x ∈ ns) as Hx by (rewrite Hsp; apply elem_of_app; right; by left).
    assert (x < n) as Hxn by auto. unfold update_neighbor. rewrite wr_Some, bind_S by lia.
    destruct (raise_level_spec n g1 x level Hg1 Hxn) as (g2 & -> & Hg2 & Ho2 & Hi2). rewrite bind_S.
    destruct (estimate_spec n max_pop g2 x Hg2 t1 Ht1 Hxn) as (k & t2 & -> & Ht2). rewrite bind_S.
    assert (is_Some (m1 !! x)) as [k0 Hk0]. { apply elem_of_dom. rewrite Hd1. auto. }
    rewrite (contains_id_spec n q1 m1 x Hq1 Hxn), bind_S. rewrite bool_decide_eq_true_2 by (by exists k0). cbn [chk]. rewrite bind_S.
    rewrite (get_key_spec n q1 m1 x k0 Hq1 Hk0), bind_S.
    assert (exists q3 m3, (if decide (k0 < k)%N then '(_, q) ← increase_key q1 (x, k); Some q
       else if decide (k < k0)%N then '(_, q) ← decrease_key q1 (x, k); Some q else Some q1) = Some q3 /\ qref n q3 m3 /\ dom m3 = dom m) as (q3 & m3 & -> & Hq3 & Hd3).
    { assert (dom (<[x:=k]> m1) = dom m) as Hdi. { rewrite dom_insert_L, Hd1. assert (x ∈ dom m) by auto. set_solver. }
      destruct (decide (k0 < k)%N) as [Hlt1|Hge1]; [|destruct (decide (k < k0)%N) as [Hlt2|Hge2]].
      - destruct (increase_key_spec n q1 m1 x k k0 Hq1 Hk0) as (q3 & -> & Hq3). rewrite bind_S. rewrite decide_True in Hq3 by done. by exists q3, (<[x:=k]> m1).
      - destruct (decrease_key_spec n q1 m1 x k k0 Hq1 Hk0) as (q3 & -> & Hq3). rewrite bind_S. rewrite decide_True in Hq3 by done. by exists q3, (<[x:=k]> m1).
      - by exists q1, m1. }
    rewrite bind_S. eexists. split; [done|]. cbv beta iota. split; [done|]. split; [congruence|]. split; [done|]. split; [by exists m3|].
    split; [by rewrite insert_length|]. intros y [(_ & ? & _)|[Hne Hy]]%list_lookup_insert_Some; [done|]. destruct (Hf1 y Hy) as [? ?]. split; [done|].
    intros [?|?%elem_of_list_singleton]%elem_of_app; [done|congruence].
  - exists g', t', q', m'. split; [|done]. do 2 f_equal. apply list_eq. intros y.
    destruct (decide (y < n)) as [Hy|Hy].
    + rewrite lookup_replicate_2 by done. destruct (lookup_lt_is_Some_2 is' y) as [[] Hb]; [lia| |done].
      by destruct (Hfl y Hb).
    + rewrite !lookup_ge_None_2; [done|rewrite replicate_length; lia|lia].
Qed.

(** The invariant between two contractions. *)
Record bok (n : nat) (s : bstate) (m : gmap nat N) : Prop := {
  bk_graph : gok n (b_graph s);
  bk_test : wtb n (b_test s);
  bk_queue : qref n (b_queue s) m;
  bk_dom : forall x, x ∈ dom m -> x < n;
  bk_within : forall u v w mid, garcs (b_graph s) u v w mid -> u ∈ dom m /\ v ∈ dom m;
  bk_rank : length (b_rank s) = n;
  bk_order : length (b_order s) = n;
  bk_is : b_is s = replicate n false;
  bk_fwd : raw_ok (b_fwd s);
  bk_bwd : raw_ok (b_bwd s) }.

Lemma garcs_out g g' : g_out g = g_out g' -> garcs g = garcs g'.
Proof. intros H. unfold garcs. by rewrite H. Qed.

Lemma contract_next_spec n max_pop i s m :
  bok n s m -> m <> ∅ -> i < n ->
  exists s' m' x outs ins, contract_next max_pop i s = Some s' /\ bok n s' m' /\ x ∈ dom m /\ dom m' = dom m ∖ {[x]} /\
    g_out (b_graph s) !! x = Some outs /\ g_in (b_graph s) !! x = Some ins /\
    b_rank s' = <[x:=i]> (b_rank s) /\ b_order s' = <[i:=x]> (b_order s) /\
    b_fwd s' = dump_arcs x outs (b_fwd s) /\ b_bwd s' = dump_arcs x ins (b_bwd s) /\
    cstep x (garcs (b_graph s)) (garcs (b_graph s')).
Proof.
  intros [Hg Ht Hq Hd Hw Hr Ho His Hf Hb] Hne Hi. unfold contract_next.
  destruct (pop_spec n _ m Hq Hne) as (x & k & q' & -> & [Hx _] & Hq'). rewrite bind_S.
  assert (x ∈ dom m) as Hxd by (apply elem_of_dom; by exists k). assert (x < n) as Hxn by auto.
  rewrite (wr_Some (b_rank s)) by lia. rewrite bind_S. rewrite (wr_Some (b_order s)) by lia. rewrite bind_S. cbv zeta.
  destruct (lookup_lt_is_Some_2 (g_out (b_graph s)) x) as [outs Hou]; [rewrite (gk_out n _ Hg); lia|].
  destruct (lookup_lt_is_Some_2 (g_in (b_graph s)) x) as [ins Hin]; [rewrite (gk_in n _ Hg); lia|].
  rewrite Hin, bind_S, Hou, bind_S.
  assert (forall a, a ∈ ins -> ga_node a <> x /\ ga_node a < n /\ ga_node a ∈ dom m) as Hins.
  { intros a Ha. assert (garcs (b_graph s) (ga_node a) x (ga_weight a) (ga_mid a)) as Hga.
    { apply (ins_garcs n _ x ins); [done|done|]. exists (ga_hop a). by destruct a. }
    destruct (Hw _ _ _ _ Hga). split; [|auto]. intros E. rewrite E in Hga. by eapply noloop_garcs. }
  assert (forall a, a ∈ outs -> ga_node a <> x /\ ga_node a < n /\ ga_node a ∈ dom m) as Houts.
  { intros a Ha. assert (garcs (b_graph s) x (ga_node a) (ga_weight a) (ga_mid a)) as Hga.
    { apply (outs_garcs n _ x outs); [done|done|]. exists (ga_hop a). by destruct a. }
    destruct (Hw _ _ _ _ Hga). split; [|auto]. intros E. rewrite E in Hga. by eapply noloop_garcs. }
  destruct (mark_neighbors_spec n x ins [] (b_is s)) as (ns1 & is1 & -> & Hf1 & Hn1).
  { rewrite His. split; [apply replicate_length|]. intros y. split; [intros [? ?]%lookup_replicate; done|intros [?%elem_of_nil ?]; done]. }
  { intros a Ha. destruct (Hins a Ha) as (? & ? & ?). done. }
  rewrite bind_S.
  destruct (mark_neighbors_spec n x outs ns1 is1 Hf1) as (ns2 & is2 & -> & Hf2 & Hn2).
  { intros a Ha. destruct (Houts a Ha) as (? & ? & ?). done. }
  rewrite bind_S.
  destruct (lookup_lt_is_Some_2 (g_level (b_graph s)) x) as [lv Hlv]; [rewrite (gk_level n _ Hg); lia|]. rewrite Hlv, bind_S.
  destruct (contract_node_spec n max_pop (b_graph s) x Hg (b_test s) Ht Hxn) as (g1 & t1 & -> & Hg1 & Ht1 & Hl1 & Hs1). rewrite bind_S.
  assert (dom (delete x m) = dom m ∖ {[x]}) as Hdd by apply dom_delete_L.
  destruct (update_neighbors_spec n max_pop (lv + 1)%N ns2 g1 t1 q' (delete x m) is2) as (g2 & t2 & q2 & m2 & -> & Hg2 & Ho2 & Ht2 & Hq2 & Hd2); [done..| | |].
  { intros y Hy. rewrite Hdd. destruct (Hn2 y Hy) as [Hy1|(a & Ha & ->)].
    - destruct (Hn1 y Hy1) as [?%elem_of_nil|(a & Ha & ->)]; [done|]. destruct (Hins a Ha) as (? & ? & ?). set_solver.
    - destruct (Houts a Ha) as (? & ? & ?). set_solver. }
  { intros y. rewrite Hdd. intros Hy. apply Hd. set_solver. }
  rewrite bind_S. pose proof (garcs_out g2 g1 Ho2) as Hga.
  eexists _, m2, x, outs, ins. split; [done|]. cbn. rewrite Hd2, Hdd. split; [|rewrite Hga; done].
  split; cbn; try done.
  - intros y. rewrite Hd2, Hdd. intros Hy. apply Hd. set_solver.
  - rewrite Hga. intros u v w mid Hu. destruct (cs_new _ _ _ Hs1 _ _ _ _ Hu) as (Hux & Hvx & H).
    assert (u ∈ dom m /\ v ∈ dom m) as [? ?].
    { destruct H as [H|(_ & w1 & m1 & w3 & m3 & H1 & H2 & _)]; [by eapply Hw|]. split; [apply (Hw _ _ _ _ H1)|apply (Hw _ _ _ _ H2)]. }
    rewrite Hd2, Hdd. set_solver.
  - by rewrite insert_length.
  - by rewrite insert_length.
  - by apply dump_spec.
  - by apply dump_spec.
Qed.

Lemma contract_all_spec n max_pop : forall fuel i s m,
  bok n s m -> size (dom m) < fuel -> i + size (dom m) = n ->
  exists s' zs F B, contract_all max_pop fuel i s = Some s' /\ length zs = size (dom m) /\ NoDup zs /\ (forall x, x ∈ zs <-> x ∈ dom m) /\
    length (b_rank s') = n /\ length (b_order s') = n /\
    (forall j, j < i -> b_order s' !! j = b_order s !! j) /\ (forall j, j < length zs -> b_order s' !! (i + j) = zs !! j) /\
    (forall x, x ∉ zs -> b_rank s' !! x = b_rank s !! x) /\ (forall j x, zs !! j = Some x -> b_rank s' !! x = Some (i + j)) /\
    raw_ok (b_fwd s') /\ raw_ok (b_bwd s') /\ contr zs (garcs (b_graph s)) F B /\
    (forall u v w mid, raw_arc (b_fwd s') u v w mid <-> raw_arc (b_fwd s) u v w mid \/ F u v w mid) /\
    (forall u v w mid, raw_arc (b_bwd s') u v w mid <-> raw_arc (b_bwd s) u v w mid \/ B u v w mid).
Proof.
  induction fuel as [|fuel IH]; intros i s m Hs Hfu Hi; [lia|]. cbn [contract_all].
  rewrite (q_empty_spec n _ m) by apply Hs. destruct (bool_decide (m = ∅)) eqn:Em.
  - apply bool_decide_eq_true in Em as ->. exists s, [], (fun _ _ _ _ => False), (fun _ _ _ _ => False).
    rewrite dom_empty_L in *. split; [done|]. split; [done|]. split; [constructor|]. split; [intros; set_solver|].
    split; [apply Hs|]. split; [apply Hs|]. split; [done|]. split; [cbn; lia|]. split; [done|]. split; [done|]. split; [apply Hs|]. split; [apply Hs|].
    split; [apply contr_nil; cbn; tauto|]. split; intros; naive_solver.
  - apply bool_decide_eq_false in Em.
    assert (size (dom m) <> 0) as Hsz. { intros E. apply Em. apply dom_empty_inv_L. by apply leibniz_equiv, size_empty_inv. }
    destruct (contract_next_spec n max_pop i s m) as (s1 & m1 & x & outs & ins & -> & Hs1 & Hx & Hd1 & Hou & Hin & Hr & Ho & Hf & Hb & Hst); [done|done|lia|].
    rewrite bind_S. assert (size (dom m1) + 1 = size (dom m)) as Hsz1.
    { rewrite Hd1. rewrite size_difference by set_solver. rewrite size_singleton. lia. }
    destruct (IH (S i) s1 m1) as (s' & zs & F & B & -> & Hlz & Hnd & Hzs & Hlr & Hlo & Ho1 & Ho2 & Hr1 & Hr2 & Hf' & Hb' & Hc & HF & HB); [done|lia|lia|].
    destruct (contr_dump n (b_graph s) (b_graph s1) x zs outs ins (b_fwd s) (b_bwd s) (b_fwd s') (b_bwd s') F B) as (F' & B' & Hc' & HF' & HB');
      [apply Hs|done|done|apply Hs|apply Hs|done|done|intros; by rewrite HF, Hf|intros; by rewrite HB, Hb|].
    assert (x ∉ zs) as Hxz by (rewrite Hzs, Hd1; set_solver).
    exists s', (x :: zs), F', B'. split; [done|]. split; [cbn; lia|]. split; [by apply NoDup_cons|].
    split. { intros y. rewrite elem_of_cons, Hzs, Hd1. destruct (decide (y = x)) as [->|]; set_solver. }
    split; [done|]. split; [done|].
    split. { intros j Hj. rewrite Ho1 by lia. rewrite Ho. by rewrite list_lookup_insert_ne by lia. }
    split. { intros [|j] Hj; cbn in Hj.
      - rewrite Nat.add_0_r. rewrite Ho1 by lia. rewrite Ho. rewrite list_lookup_insert; [done|]. rewrite (bk_order _ _ _ Hs). lia.
      - replace (i + S j) with (S i + j) by lia. rewrite Ho2 by lia. done. }
    split. { intros y Hy. apply not_elem_of_cons in Hy as [? ?]. rewrite Hr1 by done. rewrite Hr. by rewrite list_lookup_insert_ne. }
    split. { intros [|j] y Hy.
      - injection Hy as <-. rewrite Hr1 by done. rewrite Hr, Nat.add_0_r. apply list_lookup_insert. rewrite (bk_rank _ _ _ Hs). by apply (bk_dom _ _ _ Hs).
      - rewrite (Hr2 j y Hy). f_equal. lia. }
    done.
Qed.

Lemma build_ch_and_order_spec n max_pop g :
  gok n g -> exists rank order f b, build_ch_and_order max_pop g = Some (rank, order, f, b) /\
    length order = n /\ perm order /\ inverse_of order rank /\ raw_ok f /\ raw_ok b /\ contr order (garcs g) (raw_arc f) (raw_arc b).
Proof.
  intros Hg. unfold build_ch_and_order. rewrite (gk_out n g Hg). cbv zeta.
  match goal with |- context [for_range 0 n ?b _] => set (body := b) end.
  destruct (for_range_inv (fun i '(t, q) => wtb n t /\ exists m, qref n q m /\ forall x, x ∈ dom m <-> x < i) body 0 n (new_wtest n, new_queue n))
    as ([t q] & -> & Ht & m & Hq & Hm).
  - lia.
  - split; [apply wtb_new|]. exists ∅. split; [apply qref_new|]. intros x. rewrite dom_empty_L. split; [set_solver|lia].
  - intros i [t q] Hi (Ht & m & Hq & Hm). unfold body.
    destruct (estimate_spec n max_pop g i Hg t Ht) as (k & t' & -> & Ht'); [lia|]. rewrite bind_S.
    destruct (push_spec n q m i k Hq) as (q' & -> & Hq'); [lia| |].
    { apply not_elem_of_dom. rewrite Hm. lia. }
    rewrite bind_S. eexists. split; [done|]. cbv beta iota. split; [done|]. exists (<[i:=k]> m). split; [done|].
    intros x. rewrite dom_insert_L, elem_of_union, elem_of_singleton, Hm. lia.
  - rewrite bind_S.
    assert (dom m = list_to_set (seq 0 n)) as Hdm. { apply set_eq. intros x. rewrite Hm, elem_of_list_to_set, elem_of_seq. lia. }
    assert (size (dom m) = n) as Hsz. { rewrite Hdm, size_list_to_set by apply NoDup_seq. apply seq_length. }
    destruct (contract_all_spec n max_pop (S n) 0 (mkBstate g t q (replicate n 0) (replicate n 0) (replicate n false) empty_raw empty_raw) m)
      as (s' & zs & F & B & -> & Hlz & Hnd & Hzs & Hlr & Hlo & _ & Ho & _ & Hr & Hf & Hb & Hc & HF & HB); [|lia|lia|].
    { split; cbn; try done; [intros x Hx; by apply Hm| |apply replicate_length|apply replicate_length].
      intros u v w mid (h & H). destruct (gok_lt _ _ _ _ _ Hg H) as (? & ? & _). by rewrite !Hm. }
    rewrite bind_S. cbn in *. assert (b_order s' = zs) as Hz.
    { apply list_eq. intros j. destruct (decide (j < length zs)) as [Hj|Hj]; [by rewrite <- Ho by done|].
      rewrite !lookup_ge_None_2; [done|lia|lia]. }
    assert (perm zs) as Hpz. { apply NoDup_bounded_perm; [done|]. intros x Hx. rewrite Hlz, Hsz. apply Hm. by apply Hzs. }
    exists (b_rank s'), zs, (b_fwd s'), (b_bwd s'). rewrite Hz. split; [done|]. split; [lia|]. split; [done|].
    split. { split; [lia|]. intros j x. split; [by apply Hr|]. intros Hx.
      assert (x ∈ zs) as [j' Hj']%elem_of_list_lookup. { apply Hzs, Hm. apply lookup_lt_Some in Hx. lia. }
      pose proof (Hr _ _ Hj') as Hx'. rewrite Hx in Hx'. cbn in Hx'. injection Hx' as ->. done. }
    split; [done|]. split; [done|].
    eapply contr_iff; [done| |]; intros u v w mid; [rewrite HF|rewrite HB]; pose proof (raw_arc_empty u v w mid); naive_solver.
Qed.
