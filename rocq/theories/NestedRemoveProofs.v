(** Removing the arcs at a separator (nested_dissection.cpp:788-805). *)
From stdpp Require Import relations.
From Verif Require Import Base GraphSpec UtilSpec PermutationModel PermutationProofs CchBuildProofs.
From Verif Require Import FlowModel FlowSpec FlowArray NestedModel NestedSpec NestedArcProofs.
Ltac Zify.zify_post_hook ::= idtac.

Notation cnt f a := (count_occ Bool.bool_dec (take a f) true).
Notation sel := (select (fun b : bool => b)).

Lemma select_cnt {T} (f : list bool) (v : list T) a : length f = length v -> f !! a = Some true -> sel f v !! cnt f a = v !! a.
Proof.
  revert v a. induction f as [|b f IH]; intros [|x v] a Hl Ha; try done. destruct a as [|a]; cbn in *.
  - simplify_eq. done.
  - destruct b; cbn; apply IH; (lia || done).
Qed.
Lemma select_surj {T} (f : list bool) (v : list T) i x : sel f v !! i = Some x -> exists a, f !! a = Some true /\ cnt f a = i /\ v !! a = Some x.
Proof.
  revert v i. induction f as [|b f IH]; intros [|y v] i Hi; try done. cbn in Hi. destruct b.
  - destruct i as [|i]; cbn in Hi.
    + simplify_eq. exists 0. done.
    + destruct (IH _ _ Hi) as (a & H1 & H2 & H3). exists (S a). cbn. split; [done|]. split; [|done]. by rewrite H2.
  - destruct (IH _ _ Hi) as (a & H1 & H2 & H3). exists (S a). cbn. done.
Qed.
Lemma select_len {T U} (f : list bool) (v : list T) (w : list U) : length v = length w -> length (sel f v) = length (sel f w).
Proof.
  revert v w. induction f as [|b f IH]; intros [|x v] [|y w] Hl; try done. cbn in *. destruct b; cbn; by rewrite (IH v w) by lia.
Qed.
Lemma cnt_mono (f : list bool) a b : a <= b -> cnt f a <= cnt f b.
Proof.
  intros H. replace b with (a + (b - a)) by lia. rewrite <- take_take_drop, count_occ_app. lia.
Qed.

Lemma frag_sorted g i j x y : fragment_ok g -> i <= j -> fr_tail g !! i = Some x -> fr_tail g !! j = Some y -> x <= y.
Proof.
  intros H Hij Hx Hy. apply (fo_tail _ H) in Hx as (lo & hi & A1 & A2 & A3). apply (fo_tail _ H) in Hy as (lo' & hi' & B1 & B2 & B3).
  destruct (decide (x <= y)); [done|]. pose proof (csr_mono_le _ _ _ (S y) x _ _ (fo_csr _ H) ltac:(lia) B2 A1). lia.
Qed.

Section Remove.
  Context (g : fragment) (Hok : fragment_ok g) (sep : list bool) (Hsep : length sep = fr_nodes g).
  Notation n := (fr_nodes g).
  Notation m := (fr_arcs g).

  Definition kept (a : nat) : bool :=
    match fr_tail g !! a, fr_head g !! a with Some x, Some y => negb (node_in sep x) && negb (node_in sep y) | _, _ => false end.
  Lemma keep_bits : exists f, for_range 0 m (fun a f =>
      t ← fr_tail g !! a; h ← fr_head g !! a; st ← sep !! t; sh ← sep !! h; Some (f ++ [negb st && negb sh])) [] = Some f /\ length f = m /\
    (forall a, a < m -> f !! a = Some (kept a)).
  Proof.
    match goal with |- context [for_range 0 _ ?body ?init] =>
      destruct (for_range_inv (fun i f => length f = i /\ (forall a, a < i -> f !! a = Some (kept a))) body 0 m init) as (f & E & H1 & H2) end.
    - lia.
    - split; [done|]. lia.
    - intros i f Hi [H1 H2]. destruct (frag_tail g Hok i ltac:(lia)) as (t & Et & Ht). destruct (frag_head g Hok i ltac:(lia)) as (h & Eh & Hh).
      rewrite Et, Eh, !bind_S, (lk_bool sep n t), (lk_bool sep n h), !bind_S by done. eexists. split; [done|]. rewrite app_length. cbn. split; [lia|].
      intros a Ha. destruct (decide (a < i)); [rewrite lookup_app_l by lia; auto|]. replace a with i by lia. rewrite list_lookup_middle by done.
      unfold kept. by rewrite Et, Eh.
    - exists f. done.
  Qed.

  Lemma map_back (f : list bool) (back : list nat) : (forall x, x ∈ back -> f !! x = Some true) ->
    exists r, for_range 0 (length back) (fun i back => x ← back !! i; l ← to_local_id f x; wr back i l) back = Some r /\ length r = length back /\
      forall i x, back !! i = Some x -> r !! i = Some (cnt f x).
  Proof.
    intros Hf.
    match goal with |- context [for_range 0 _ ?body ?init] =>
      destruct (for_range_inv (fun i r => length r = length back /\ (forall j x, back !! j = Some x -> r !! j = Some (if j <? i then cnt f x else x))) body 0 (length back) init) as (r & E & H1 & H2) end.
    - lia.
    - done.
    - intros i r Hi [H1 H2]. destruct (lookup_lt_is_Some_2 back i ltac:(lia)) as [x Hx]. rewrite (H2 _ _ Hx). rewrite Nat.ltb_irrefl, bind_S.
      unfold to_local_id. rewrite (Hf x) by (by eapply elem_of_list_lookup_2). rewrite bind_S. cbn [chk]. rewrite !bind_S.
      rewrite (wr_Some r) by lia. eexists. split; [done|]. rewrite insert_length. split; [done|]. intros j y Hy. destruct (decide (i = j)) as [<-|Hne].
      + rewrite list_lookup_insert by lia. simplify_eq. by rewrite (proj2 (Nat.ltb_lt i (S i))) by lia.
      + rewrite list_lookup_insert_ne by done. rewrite (H2 _ _ Hy). destruct (j <? i) eqn:E1, (j <? S i) eqn:E2; try done;
          rewrite ?Nat.ltb_lt, ?Nat.ltb_ge in *; lia.
    - exists r. split; [done|]. split; [done|]. intros i x Hx. rewrite (H2 _ _ Hx). rewrite (proj2 (Nat.ltb_lt _ _)); [done|]. by apply lookup_lt_Some in Hx.
  Qed.

  Lemma remove_separator_spec : exists g', remove_separator g sep = Some g' /\ fragment_ok g' /\ fr_global g' = fr_global g /\
    (forall x y, arc g' x y <-> arc g x y /\ node_in sep x = false /\ node_in sep y = false).
  Proof.
    unfold remove_separator. destruct keep_bits as (f & -> & Hfl & Hf). rewrite bind_S.
    pose proof (frag_m g Hok) as Hm. pose proof (fo_tail_len _ Hok) as Htl. pose proof (fo_back_len _ Hok) as Hbl.
    unfold keep_element_of_vector_if. rewrite !inplace_filter_correct by (unfold fr_arcs in *; lia). rewrite !bind_S.
    assert (forall a, f !! a = Some true -> exists x y, fr_tail g !! a = Some x /\ fr_head g !! a = Some y /\ node_in sep x = false /\ node_in sep y = false) as Hfx.
    { intros a Ha. assert (a < m) as Hlt by (apply lookup_lt_Some in Ha; lia). rewrite (Hf _ Hlt) in Ha. unfold kept in Ha.
      destruct (fr_tail g !! a) as [x|], (fr_head g !! a) as [y|]; try done. exists x, y. destruct (node_in sep x), (node_in sep y); by simplify_eq. }
    assert (forall a x y, fr_tail g !! a = Some x -> fr_head g !! a = Some y -> node_in sep x = false -> node_in sep y = false -> f !! a = Some true) as Hfr.
    { intros a x y E1 E2 E3 E4. rewrite Hf by (by apply lookup_lt_Some in E1). unfold kept. by rewrite E1, E2, E3, E4. }
    assert (forall a b, f !! a = Some true -> fr_back g !! a = Some b -> f !! b = Some true) as Hfb.
    { intros a b Ha Hb. destruct (Hfx _ Ha) as (x & y & E1 & E2 & E3 & E4). destruct (fo_swap _ Hok _ _ Hb) as [S1 S2]. eapply (Hfr b y x); congruence. }
    destruct (map_back f (sel f (fr_back g))) as (back & -> & Hlen & Hback).
    { intros x [i Hi]%elem_of_list_lookup. destruct (select_surj _ _ _ _ Hi) as (a & A1 & A2 & A3). by eapply Hfb. }
    rewrite bind_S.
    assert (forall a b, f !! a = Some true -> fr_back g !! a = Some b -> back !! cnt f a = Some (cnt f b)) as Hbk.
    { intros a b Ha Hb. apply Hback. rewrite select_cnt by (unfold fr_arcs in *; lia || done). done. }
    assert (forall i x, back !! i = Some x -> exists a b, f !! a = Some true /\ fr_back g !! a = Some b /\ cnt f a = i /\ cnt f b = x) as Hbi.
    { intros i x Hx. destruct (lookup_lt_is_Some_2 (sel f (fr_back g)) i) as [b Hb]; [rewrite <- Hlen; by apply lookup_lt_Some in Hx|].
      pose proof (Hback _ _ Hb) as E. destruct (select_surj _ _ _ _ Hb) as (a & A1 & A2 & A3). exists a, b. simplify_eq. done. }
    assert (forall a, f !! a = Some true -> sel f (fr_tail g) !! cnt f a = fr_tail g !! a /\ sel f (fr_head g) !! cnt f a = fr_head g !! a) as Hsel.
    { intros a Ha. split; apply select_cnt; (unfold fr_arcs in *; lia || done). }
    assert (arcs_ok n (sel f (fr_tail g)) (sel f (fr_head g)) back) as Ha.
    { split.
      - by apply select_len.
      - rewrite Hlen. by apply select_len.
      - intros x [i Hi]%elem_of_list_lookup. destruct (select_surj _ _ _ _ Hi) as (a & A1 & A2 & A3). apply (frag_tail_lt g Hok _ _ A3).
      - intros x [i Hi]%elem_of_list_lookup. destruct (select_surj _ _ _ _ Hi) as (a & A1 & A2 & A3). apply (csr_head _ _ _ (fo_csr _ Hok)). by apply elem_of_list_lookup_2 in A3.
      - intros i x Hx. destruct (Hbi _ _ Hx) as (a & b & A1 & A2 & <- & <-). apply Hbk; [by eapply Hfb|by apply (fo_back _ Hok)].
      - intros i x Hx. destruct (Hbi _ _ Hx) as (a & b & A1 & A2 & <- & <-). destruct (Hsel _ A1) as [-> ->]. destruct (Hsel _ (Hfb _ _ A1 A2)) as [-> ->]. by apply (fo_swap _ Hok). }
    assert (StronglySorted le (sel f (fr_tail g))) as Hs.
    { apply sorted_pairwise. intros i j x y Hij Hx Hy. destruct (select_surj _ _ _ _ Hx) as (a & A1 & A2 & A3). destruct (select_surj _ _ _ _ Hy) as (b & B1 & B2 & B3).
      apply (frag_sorted g a b _ _ Hok); [|done..]. destruct (decide (a <= b)); [done|]. pose proof (cnt_mono f b a). lia. }
    destruct (fragment_of_sorted n (fr_global g) _ _ _ eq_refl Ha Hs) as (fo & -> & Hok'). rewrite bind_S. eexists. split; [done|]. split; [done|]. split; [done|].
    intros x y. unfold arc. cbn [fr_tail fr_head]. split.
    - intros (i & E1 & E2). destruct (select_surj _ _ _ _ E1) as (a & A1 & <- & A3). destruct (Hsel _ A1) as [E3 E4]. rewrite E4 in E2.
      destruct (Hfx _ A1) as (x' & y' & F1 & F2 & F3 & F4). simplify_eq. split; [by exists a|done].
    - intros ((a & E1 & E2) & E3 & E4). pose proof (Hfr _ _ _ E1 E2 E3 E4) as A1. destruct (Hsel _ A1) as [F3 F4]. exists (cnt f a). by rewrite F3, F4.
  Qed.
End Remove.
