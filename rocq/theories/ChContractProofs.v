(** Contracting a node preserves the distances between the other nodes. *)
From Verif Require Import Base IdQueueModel IdSetModel WalkSpec ChGraphModel ChGraphProofs ChWitnessProofs.
Ltac Zify.zify_post_hook ::= idtac.

(** Arcs [u] to [v] with a weight and a mid node. *)
Notation marcs := (nat -> nat -> N -> option nat -> Prop).
Definition ew (E : marcs) : warcs := fun u v w => exists m, E u v w m.
Definition garcs (g : chgraph) : marcs := fun u v w m => exists h, gf g u v = Some (w, h, m).

(** [E'] is [E] after the contraction of [z]. *)
Record cstep (z : nat) (E E' : marcs) : Prop := {
  cs_new : forall u v w m, E' u v w m -> u <> z /\ v <> z /\
    (E u v w m \/ (m = Some z /\ exists w1 m1 w2 m2, E u z w1 m1 /\ E z v w2 m2 /\ w = (w1 + w2)%N));
  cs_walk : forall u v L, u <> z -> v <> z -> dist_walk (ew E) u v L -> exists L', (L' <= L)%N /\ dist_walk (ew E') u v L' }.

Lemma for_each_ok {A St} (P : St -> Prop) (body : A -> St -> option St) l s :
  P s -> (forall x s, x ∈ l -> P s -> exists s', body x s = Some s' /\ P s') -> exists s', for_each l body s = Some s' /\ P s'.
Proof.
  intros HP Hstep. apply (for_each_inv (fun _ s => P s)); [done|]. intros pre x post s0 -> H0. apply Hstep; [|done].
  apply elem_of_app. right. by left.
Qed.

Section contract.
  Variables (n max_pop : nat) (g0 : chgraph) (node : nat).
  Hypothesis Hg0 : gok n g0.

  (** every arc stays or becomes shorter *)
  Definition shrinks (g g1 : chgraph) : Prop :=
    forall u v w h m, gf g u v = Some (w, h, m) -> exists w' h' m', gf g1 u v = Some (w', h', m') /\ (w' <= w)%N.
  Record ext (g : chgraph) : Prop := {
    ex_ok : gok n g;
    ex_level : g_level g = g_level g0;
    ex_node : forall u v, u = node \/ v = node -> gf g u v = gf g0 u v;
    ex_new : forall u v w h m, gf g u v = Some (w, h, m) -> gf g0 u v = Some (w, h, m) \/
      (m = Some node /\ exists w1 h1 m1 w2 h2 m2, gf g0 u node = Some (w1, h1, m1) /\ gf g0 node v = Some (w2, h2, m2) /\ w = (w1 + w2)%N);
    ex_shrinks : shrinks g0 g }.
  Definition bridged (g : chgraph) (x y : nat) (w : N) : Prop :=
    exists L, (L <= w)%N /\ dist_walk (avoid node (gaw g)) x y L.

  Lemma shrinks_walk g g1 : shrinks g g1 -> forall u v L,
    dist_walk (avoid node (gaw g)) u v L -> exists L', (L' <= L)%N /\ dist_walk (avoid node (gaw g1)) u v L'.
  Proof.
    intros H. apply dw_replace. intros u v w (Hu & Hv & h & m & Hf). destruct (H _ _ _ _ _ Hf) as (w' & h' & m' & Hf' & Hle).
    exists w'. split; [done|]. apply dw_arc. split; [done|]. split; [done|]. by exists h', m'.
  Qed.
  Lemma bridged_shrinks g g1 x y w : shrinks g g1 -> bridged g x y w -> bridged g1 x y w.
  Proof. intros H (L & HL & Hw). destruct (shrinks_walk g g1 H _ _ _ Hw) as (L' & ? & ?). exists L'. split; [lia|done]. Qed.
  Lemma pinned_shrinks g g1 s t : shrinks g g1 -> pinned n g node s t -> pinned n g1 node s t.
  Proof. intros H (? & Hf & ?). split; [done|]. split; [|done]. eapply wsi_mono; [|exact Hf]. by apply shrinks_walk. Qed.
  Lemma shrinks_refl g : shrinks g g.
  Proof. intros u v w h m H. exists w, h, m. split; [done|lia]. Qed.
  Lemma shrinks_trans a b c : shrinks a b -> shrinks b c -> shrinks a c.
  Proof.
    intros H1 H2 u v w h m H. destruct (H1 _ _ _ _ _ H) as (w1 & h1 & m1 & H3 & ?). destruct (H2 _ _ _ _ _ H3) as (w2 & h2 & m2 & H4 & ?).
    exists w2, h2, m2. split; [done|lia].
  Qed.
  Lemma ext_refl : ext g0.
  Proof. split; [done|done|done| |apply shrinks_refl]. intros. by left. Qed.

  (** adding the shortcut between [x] and [y] *)
  Lemma add_shortcut g x y w1 h1 m1 w2 h2 m2 h :
    ext g -> gf g0 x node = Some (w1, h1, m1) -> gf g0 node y = Some (w2, h2, m2) -> x <> y ->
    exists g', add_arc_or_reduce_arc_weight x (Some node) y (w1 + w2)%N h g = Some g' /\ ext g' /\ shrinks g g' /\ bridged g' x y (w1 + w2)%N.
  Proof.
    intros [Hok Hlev Hnode Hnew Hsh] H1 H2 Hne.
    destruct (gok_lt _ _ _ _ _ Hg0 H1) as (Hx & _ & Hxn). destruct (gok_lt _ _ _ _ _ Hg0 H2) as (_ & Hy & Hyn).
    destruct (add_arc_spec n g x (Some node) y (w1 + w2)%N h Hok Hx Hy Hne) as (g' & -> & Hok' & Hlev' & v & Hv & Hvle & Hvw & Hf).
    assert (shrinks g g') as Hs.
    { intros a b w h' m Hab. rewrite Hf. unfold upd. destruct (decide (a = x /\ b = y)) as [[-> ->]|].
      - specialize (Hvle _ Hab). destruct v as [[w' h''] m']. by eexists _, _, _.
      - eexists _, _, _. split; [done|lia]. }
    exists g'. split; [done|]. split; [|split; [done|]].
    - split; [done|congruence| | |by eapply shrinks_trans].
      + intros a b Hab. rewrite Hf. unfold upd. rewrite decide_False by naive_solver. auto.
      + intros a b w h' m. rewrite Hf. unfold upd. destruct (decide (a = x /\ b = y)) as [[-> ->]|].
        * intros Hvv. injection Hvv as ->. destruct Hv as [Hv|Hv]; [auto|]. injection Hv as -> -> ->. right. split; [done|]. by eexists _, _, _, _, _, _.
        * apply Hnew.
    - destruct v as [[w' h'] m']. exists w'. split; [done|]. apply dw_arc. split; [done|]. split; [by apply not_eq_sym|]. exists h', m'.
      rewrite Hf. unfold upd. by rewrite decide_True.
  Qed.

  Lemma ins_arc ins ia : g_in g0 !! node = Some ins -> ia ∈ ins -> gf g0 (ga_node ia) node = Some (val ia).
  Proof.
    intros Hi Ha. rewrite (gk_mirror n g0 Hg0), (fo_lookup _ _ _ _ Hi). apply lkup_elem; [by eapply gk_nd_in|done].
  Qed.
  Lemma outs_arc outs oa : g_out g0 !! node = Some outs -> oa ∈ outs -> gf g0 node (ga_node oa) = Some (val oa).
  Proof. intros Hi Ha. rewrite (fo_lookup _ _ _ _ Hi). apply lkup_elem; [by eapply gk_nd_out|done]. Qed.

  (** The graph before the arcs of [node] are removed bridges every pair of its neighbours. *)
  Lemma bridge_walk g :
    ext g ->
    (forall x y w1 h1 m1 w2 h2 m2, gf g0 x node = Some (w1, h1, m1) -> gf g0 node y = Some (w2, h2, m2) -> x <> y -> bridged g x y (w1 + w2)%N) ->
    forall u v L, u <> node -> v <> node -> dist_walk (ew (garcs g0)) u v L ->
    exists L', (L' <= L)%N /\ dist_walk (avoid node (gaw g)) u v L'.
  Proof.
    intros Hext Hb u v L Hu Hv [[-> ->]|[k Hk]]; [exists 0%N; split; [done|apply dw_refl]|].
    revert u v L Hu Hv Hk. induction (lt_wf k) as [k _ IH]. intros u v L Hu Hv Hk.
    assert (forall a b w m, garcs g0 a b w m -> a <> node -> b <> node -> exists w', (w' <= w)%N /\ dist_walk (avoid node (gaw g)) a b w') as Harc.
    { intros a b w m (h & Hf) Ha Hbn. destruct (ex_shrinks _ Hext _ _ _ _ _ Hf) as (w' & h' & m' & Hf' & Hle). exists w'. split; [done|].
      apply dw_arc. split; [done|]. split; [done|]. by exists h', m'. }
    assert (forall a b w1 w2, ew (garcs g0) a node w1 -> ew (garcs g0) node b w2 -> exists w', (w' <= w1 + w2)%N /\ dist_walk (avoid node (gaw g)) a b w') as Hpair.
    { intros a b w1 w2 (m1 & h1 & H1) (m2 & h2 & H2). destruct (decide (a = b)) as [->|Hne].
      - exists 0%N. split; [lia|apply dw_refl].
      - by eapply Hb. }
    inversion Hk as [? ? w (m & Hw)|? x ? w L' k' (m & Hw) _ Hrest]; subst; [by eapply Harc|].
    destruct (decide (x = node)) as [->|Hx].
    - inversion Hrest as [? ? w2 Hw2|? y ? w2 L2 k2 Hw2 _ Hrest2]; subst.
      + destruct (Hpair u v w L') as (w' & ? & ?); [by exists m|done|]. exists w'. split; [lia|done].
      + destruct (Hpair u y w w2) as (w' & ? & ?); [by exists m|done|].
        assert (y <> node) as Hy. { destruct Hw2 as (m2 & h2 & H2). intros ->. by destruct (gok_lt _ _ _ _ _ Hg0 H2) as (_ & _ & ?). }
        destruct (IH k2 ltac:(lia) y v L2 Hy Hv Hrest2) as (L3 & ? & ?). exists (w' + L3)%N. split; [lia|]. by eapply dw_app.
    - destruct (Harc u x w m Hw Hu Hx) as (w' & ? & ?). destruct (IH k' ltac:(lia) x v L' Hx Hv Hrest) as (L3 & ? & ?).
      exists (w' + L3)%N. split; [lia|]. by eapply dw_app.
  Qed.

  Lemma contract_node_spec t :
    wtb n t -> node < n ->
    exists g' t', contract_node max_pop g0 t node = Some (g', t') /\ gok n g' /\ wtb n t' /\ g_level g' = g_level g0 /\
      cstep node (garcs g0) (garcs g').
  Proof.
    intros Ht Hn. unfold contract_node.
    destruct (lookup_lt_is_Some_2 (g_in g0) node) as [ins Hins]; [rewrite (gk_in n g0 Hg0); lia|].
    destruct (lookup_lt_is_Some_2 (g_out g0) node) as [outs Houts]; [rewrite (gk_out n g0 Hg0); lia|].
    rewrite Hins, bind_S, Houts, bind_S.
    match goal with |- context [for_each ins ?b _] => set (body := b) end.
    destruct (for_each_inv
      (fun pre '(g, t) => ext g /\ wtb n t /\ forall ia oa, ia ∈ pre -> oa ∈ outs -> ga_node ia <> ga_node oa ->
          bridged g (ga_node ia) (ga_node oa) (ga_weight ia + ga_weight oa)%N) body ins (g0, t)) as ([g1 t1] & -> & Hext & Ht1 & Hbr).
    - split; [apply ext_refl|]. split; [done|]. intros ia oa ?%elem_of_nil. done.
    - intros pre ia post [g t'] Hsp (Hext & Ht' & Hbr). assert (ia ∈ ins) as Hia by (rewrite Hsp; apply elem_of_app; right; by left).
      pose proof (ins_arc ins ia Hins Hia) as Hfi. destruct (gok_lt _ _ _ _ _ Hg0 Hfi) as (Hin & _ & Hinn). unfold body.
      destruct (pin_source_spec n g t' (ga_node ia) node) as (t2 & -> & Hp); [done|done|done|]. rewrite bind_S.
      match goal with |- context [for_each outs ?b _] => set (body2 := b) end.
      destruct (for_each_inv
        (fun pre '(g', t) => ext g' /\ shrinks g g' /\ pinned n g' node (ga_node ia) t /\ forall oa, oa ∈ pre -> ga_node ia <> ga_node oa ->
          bridged g' (ga_node ia) (ga_node oa) (ga_weight ia + ga_weight oa)%N) body2 outs (g, t2)) as ([g2 t3] & -> & Hext2 & Hsh2 & Hp2 & Hbr2).
      + split; [done|]. split; [apply shrinks_refl|]. split; [done|]. intros oa ?%elem_of_nil. done.
      + intros pre2 oa post2 [g3 t4] Hsp2 (He3 & Hs3 & Hp3 & Hb3). assert (oa ∈ outs) as Hoa by (rewrite Hsp2; apply elem_of_app; right; by left).
        pose proof (outs_arc outs oa Houts Hoa) as Hfo. destruct (gok_lt _ _ _ _ _ Hg0 Hfo) as (_ & Hout & Houtn). unfold body2.
        destruct (decide (ga_node ia <> ga_node oa)) as [Hne|Heq].
        2:{ eexists. split; [done|]. cbv beta iota. split; [done|]. split; [done|]. split; [done|]. intros oa' [Hpo| ->%elem_of_list_singleton]%elem_of_app ?; [by apply Hb3|done]. }
        destruct (shorter_spec n g3 max_pop t4 (ga_node ia) node (ga_node oa) (ga_weight ia + ga_weight oa)%N) as (r & t5 & -> & Hp5 & Hr);
          [apply (ex_ok _ He3)|done|done|by apply not_eq_sym|].
        rewrite bind_S. destruct r.
        * eexists. split; [done|]. cbv beta iota. split; [done|]. split; [done|]. split; [done|].
          intros oa' [Hpo| ->%elem_of_list_singleton]%elem_of_app ?; [by apply Hb3|]. by apply Hr.
        * destruct ia as [xi wi hi mi], oa as [xo wo ho mo]. cbn in *.
          destruct (add_shortcut g3 xi xo wi hi mi wo ho mo (hi + ho)%N) as (g5 & -> & He5 & Hs5 & Hb5); [done..|].
          rewrite bind_S. eexists. split; [done|]. cbv beta iota. split; [done|]. split; [by eapply shrinks_trans|]. split; [by eapply pinned_shrinks|].
          intros oa' [Hpo| ->%elem_of_list_singleton]%elem_of_app ?; [|done]. eapply bridged_shrinks; [done|]. by apply Hb3.
      + eexists. split; [done|]. cbv beta iota. split; [done|]. split; [by eapply pinned_wtb|].
        intros ia' oa [Hpi| ->%elem_of_list_singleton]%elem_of_app Hoa ?; [|by apply Hbr2]. eapply bridged_shrinks; [done|]. by apply Hbr.
    - rewrite bind_S. destruct (remove_all_spec n g1 node) as (g' & -> & Hok' & Hlev' & Hf'); [apply (ex_ok _ Hext)|done|].
      rewrite bind_S. eexists _, _. split; [done|]. split; [done|]. split; [done|]. split; [rewrite Hlev'; apply (ex_level _ Hext)|].
      split.
      + intros u v w m (h & Hf). rewrite Hf' in Hf. destruct (decide (u = node \/ v = node)) as [|Hne]; [done|].
        split; [naive_solver|]. split; [naive_solver|]. destruct (ex_new _ Hext _ _ _ _ _ Hf) as [H0|(-> & w1 & h1 & m1 & w2 & h2 & m2 & H1 & H2 & ->)].
        * left. by exists h.
        * right. split; [done|]. exists w1, m1, w2, m2. split; [by exists h1|]. split; [by exists h2|done].
      + intros u v L Hu Hv Hw. destruct (bridge_walk g1 Hext) with (u := u) (v := v) (L := L) as (L' & HL & HwL); [|done..|].
        { intros x y w1 h1 m1 w2 h2 m2 H1 H2 Hne.
          rewrite (gk_mirror n g0 Hg0), (fo_lookup _ _ _ _ Hins) in H1. rewrite (fo_lookup _ _ _ _ Houts) in H2.
          apply lkup_Some in H1, H2. by apply (Hbr (mkGarc x w1 h1 m1) (mkGarc y w2 h2 m2)). }
        destruct (dw_replace (avoid node (gaw g1)) (ew (garcs g'))) with (u := u) (v := v) (L := L') as (L2 & ? & ?); [|done|exists L2; split; [lia|done]].
        intros a b w (Ha & Hb & h & m & Hf). exists w. split; [done|]. apply dw_arc. exists m, h. rewrite Hf'. rewrite decide_False by naive_solver. done.
  Qed.

  Lemma estimate_spec t :
    wtb n t -> node < n -> exists k t', estimate_node_importance max_pop g0 t node = Some (k, t') /\ wtb n t'.
  Proof.
    intros Ht Hn. unfold estimate_node_importance.
    destruct (lookup_lt_is_Some_2 (g_level g0) node) as [lv Hlv]; [rewrite (gk_level n g0 Hg0); lia|].
    destruct (lookup_lt_is_Some_2 (g_in g0) node) as [ins Hins]; [rewrite (gk_in n g0 Hg0); lia|].
    destruct (lookup_lt_is_Some_2 (g_out g0) node) as [outs Houts]; [rewrite (gk_out n g0 Hg0); lia|].
    rewrite Hlv, bind_S, Hins, bind_S, Houts, bind_S.
    match goal with |- context [for_each ins ?b _] => set (body := b) end.
    destruct (for_each_ok (fun '(_, _, t) => wtb n t) body ins (0%N, 0%N, t)) as ([[arcs hops] t1] & -> & Ht1).
    - done.
    - intros ia [[arcs hops] t'] Hia Ht'. unfold body. pose proof (ins_arc ins ia Hins Hia) as Hfi. destruct (gok_lt _ _ _ _ _ Hg0 Hfi) as (Hin & _ & Hinn).
      destruct (pin_source_spec n g0 t' (ga_node ia) node) as (t2 & -> & Hp); [done|done|done|]. rewrite bind_S.
      match goal with |- context [for_each outs ?b _] => set (body2 := b) end.
      destruct (for_each_ok (fun '(_, _, t) => pinned n g0 node (ga_node ia) t) body2 outs (arcs, hops, t2)) as ([[a2 h2] t3] & -> & Hp3).
      + done.
      + intros oa [[a3 h3] t4] Hoa Hp4. pose proof (outs_arc outs oa Houts Hoa) as Hfo. destruct (gok_lt _ _ _ _ _ Hg0 Hfo) as (_ & Hout & Houtn). unfold body2.
        destruct (decide (ga_node ia <> ga_node oa)) as [Hne|Heq]; [|by eexists].
        destruct (shorter_spec n g0 max_pop t4 (ga_node ia) node (ga_node oa) (ga_weight ia + ga_weight oa)%N) as (r & t5 & -> & Hp5 & Hr);
          [done|done|done|by apply not_eq_sym|].
        rewrite bind_S. destruct r; by eexists.
      + eexists. split; [done|]. cbv beta iota. by eapply pinned_wtb.
    - rewrite bind_S. cbv zeta. eexists _, _. split; [done|done].
  Qed.
End contract.
