(** Arrays of arcs: sorting them, and the fragment of a graph. *)
From stdpp Require Import relations.
From Verif Require Import Base GraphSpec UtilSpec PermutationModel PermutationProofs GraphUtilModel GraphUtilProofs CchBuildProofs.
From Verif Require Import FlowModel FlowSpec FlowArray NestedModel NestedSpec.
Ltac Zify.zify_post_hook ::= idtac.

Record arcs_ok (n : nat) (tail head back : list nat) : Prop := {
  ao_tl : length tail = length head;
  ao_bl : length back = length head;
  ao_t : forall x, x ∈ tail -> x < n;
  ao_h : forall x, x ∈ head -> x < n;
  ao_back : forall a b, back !! a = Some b -> back !! b = Some a;
  ao_swap : forall a b, back !! a = Some b -> tail !! b = head !! a /\ head !! b = tail !! a }.

Definition ends (tail head : list nat) (x y : nat) : Prop := exists a, tail !! a = Some x /\ head !! a = Some y.

Lemma fragment_of_sorted n gl tail head back : length gl = n -> arcs_ok n tail head back -> StronglySorted le tail ->
  exists fo, invert_vector tail n = Some fo /\ fragment_ok (mkFragment gl fo tail head back).
Proof.
  intros Hg [H1 H2 H3 H4 H5 H6] Hs. destruct (index_spec n tail head H1 Hs H3 H4) as (fo & E & Hc & Ho). exists fo. split; [done|].
  split; unfold fr_nodes; cbn [fr_global fr_first_out fr_tail fr_head fr_back]; [by rewrite Hg|done| |done|done|done].
  intros x a. by rewrite Ho.
Qed.

Lemma fragment_arcs g : fragment_ok g -> arcs_ok (fr_nodes g) (fr_tail g) (fr_head g) (fr_back g) /\ StronglySorted le (fr_tail g).
Proof.
  intros H. split.
  - split; [apply H|apply H| | |apply H|apply H].
    + intros x [a Ha]%elem_of_list_lookup. apply (frag_tail_lt _ H _ _ Ha).
    + apply (csr_head _ _ _ (fo_csr _ H)).
  - apply sorted_pairwise. intros i j x y Hij Hx Hy. apply (fo_tail _ H) in Hx as (lo & hi & A1 & A2 & A3). apply (fo_tail _ H) in Hy as (lo' & hi' & B1 & B2 & B3).
    destruct (decide (x <= y)); [done|]. pose proof (csr_mono_le _ _ _ (S y) x _ _ (fo_csr _ H) ltac:(lia) B2 A1). lia.
Qed.

Lemma sort_arcs_spec asserts n tail head back : arcs_ok n tail head back ->
  exists tail' head' back' fo, sort_arcs asserts n tail head back = Some (tail', head', back', fo) /\
    arcs_ok n tail' head' back' /\ StronglySorted le tail' /\ invert_vector tail' n = Some fo /\ (forall x y, ends tail' head' x y <-> ends tail head x y).
Proof.
  intros [H1 H2 H3 H4 H5 H6]. unfold sort_arcs, compute_inverse_sort_permutation_first_by_tail_then_by_head_and_apply_sort_to_tail.
  destruct (compute_inverse_sort_permutation_lex_apply_correct asserts n tail n head H1 H3 H4) as (r & ri & tail' & -> & [Hr _] & [Hil Hi] & [Htl Ht] & Hs).
  rewrite bind_S. cbv beta iota. assert (perm r) as Hp. { unfold perm. pose proof (Permutation_length Hr) as E. rewrite seq_length in E. rewrite E. done. }
  assert (perm ri) as Hpi by (by eapply inverse_of_perm; [|split]).
  assert (length r = length tail) as Hrl by (apply Permutation_length in Hr; by rewrite seq_length in Hr).
  destruct (apply_inverse_permutation_correct ri head Hpi ltac:(lia)) as (head' & -> & Hhl & [_ Hh]). rewrite bind_S.
  destruct (apply_inverse_permutation_correct ri back Hpi ltac:(lia)) as (back1 & -> & Hbl & [_ Hb]). rewrite bind_S.
  assert (forall i, i < length tail -> exists x, ri !! x = Some i /\ x < length tail) as Hsur.
  { intros i Hlt. destruct (perm_surj ri i Hpi ltac:(lia)) as [x Hx]. exists x. split; [done|]. apply lookup_lt_Some in Hx. lia. }
  assert (forall x i, ri !! x = Some i -> back1 !! i = back !! x) as Hb1 by (intros x i E; symmetry; by apply Hb).
  assert (forall y, y ∈ back1 -> y < length ri) as Hbr.
  { intros y [i Hy]%elem_of_list_lookup. destruct (Hsur i) as (x & Hx & _); [apply lookup_lt_Some in Hy; lia|].
    rewrite (Hb1 _ _ Hx) in Hy. apply H5 in Hy. apply lookup_lt_Some in Hy. lia. }
  destruct (apply_to_elements_correct ri back1 Hbr) as (back' & E & Hbl' & Hb'). unfold apply_permutation_to_elements_of in E. rewrite E, bind_S.
  assert (forall x i, ri !! x = Some i -> tail' !! i = tail !! x /\ head' !! i = head !! x) as K1.
  { intros x i Hx. split; [|symmetry; by apply Hh]. apply Hi in Hx. by apply Ht. }
  assert (forall x y i, ri !! x = Some i -> back !! x = Some y -> back' !! i = ri !! y) as K2.
  { intros x y i Hx Hy. apply Hb'. by rewrite (Hb1 _ _ Hx). }
  assert (StronglySorted le tail') as Hss by (apply Sorted_StronglySorted; [exact Nat.le_trans|done]).
  assert (arcs_ok n tail' head' back') as Hok.
  { split; [lia|lia| | | |].
    - intros t [i Hy]%elem_of_list_lookup. destruct (Hsur i) as (x & Hx & _); [apply lookup_lt_Some in Hy; lia|]. rewrite (proj1 (K1 _ _ Hx)) in Hy.
      apply H3. by apply elem_of_list_lookup_2 in Hy.
    - intros t [i Hy]%elem_of_list_lookup. destruct (Hsur i) as (x & Hx & _); [apply lookup_lt_Some in Hy; lia|]. rewrite (proj2 (K1 _ _ Hx)) in Hy.
      apply H4. by apply elem_of_list_lookup_2 in Hy.
    - intros i b Hy. destruct (Hsur i) as (x & Hx & Hxl); [apply lookup_lt_Some in Hy; lia|]. destruct (lookup_lt_is_Some_2 back x ltac:(lia)) as [y Hxy].
      rewrite (K2 _ _ _ Hx Hxy) in Hy. by rewrite (K2 _ _ _ Hy (H5 _ _ Hxy)).
    - intros i b Hy. destruct (Hsur i) as (x & Hx & Hxl); [apply lookup_lt_Some in Hy; lia|]. destruct (lookup_lt_is_Some_2 back x ltac:(lia)) as [y Hxy].
      rewrite (K2 _ _ _ Hx Hxy) in Hy. destruct (K1 _ _ Hx) as [-> ->]. destruct (K1 _ _ Hy) as [-> ->]. by apply H6. }
  destruct (fragment_of_sorted n (replicate n 0) tail' head' back' ltac:(by rewrite replicate_length) Hok Hss) as (fo & Efo & _). rewrite Efo, bind_S.
  exists tail', head', back', fo. split; [done|]. split; [done|]. split; [done|]. split; [done|].
  intros x y. split; intros (a & Ha & Hb0).
  - destruct (Hsur a) as (b & Hx & _); [apply lookup_lt_Some in Ha; lia|]. destruct (K1 _ _ Hx) as [E1 E2]. exists b. by rewrite <- E1, <- E2.
  - destruct (lookup_lt_is_Some_2 ri a) as [i Hx]; [apply lookup_lt_Some in Ha; lia|]. destruct (K1 _ _ Hx) as [E1 E2]. exists i. by rewrite E1, E2.
Qed.

(** ** make_graph_fragment *)
Section Make.
  Context (tail head : list nat) (Hl : length tail = length head).

  Definition non_loops (i : nat) : list (nat * nat) := filter (fun e => e.1 <> e.2) (take i (zip tail head)).
  Lemma non_loops_S i t h : tail !! i = Some t -> head !! i = Some h -> non_loops (S i) = non_loops i ++ (if t =? h then [] else [(t, h)]).
  Proof.
    intros Ht Hh. unfold non_loops. assert (zip tail head !! i = Some (t, h)) as E by (apply lookup_zip_with_Some; eauto).
    rewrite (take_S_r _ _ _ E), filter_app. f_equal. destruct (t =? h) eqn:Eq.
    - apply Nat.eqb_eq in Eq as ->. by rewrite filter_cons_False by (cbn; tauto).
    - apply Nat.eqb_neq in Eq. by rewrite filter_cons_True by done.
  Qed.
  Lemma non_loops_le i j : i <= j -> length (non_loops i) <= length (non_loops j).
  Proof.
    intros Hij. unfold non_loops. replace j with (i + (j - i)) by lia. generalize (j - i). intros d.
    rewrite <- take_take_drop.
    rewrite filter_app, app_length. lia.
  Qed.

  Lemma count_non_loops_spec : count_non_loops tail head = Some (length (non_loops (length head))).
  Proof.
    unfold count_non_loops.
    match goal with |- for_range 0 _ ?body ?init = _ => destruct (for_range_inv (fun i c => c = length (non_loops i)) body 0 (length head) init) as (c & -> & ->) end.
    - lia.
    - done.
    - intros i c Hi ->. destruct (lookup_lt_is_Some_2 tail i ltac:(lia)) as [t Ht]. destruct (lookup_lt_is_Some_2 head i ltac:(lia)) as [h Hh].
      rewrite Ht, Hh, !bind_S. eexists. split; [done|]. rewrite (non_loops_S _ _ _ Ht Hh), app_length. destruct (t =? h); cbn; lia.
    - done.
  Qed.

  Notation k := (length (non_loops (length head))).
  Definition filled (i : nat) (s : list nat * list nat * list nat * nat) : Prop :=
    let '(ft, fh, fb, j) := s in
    j = length (non_loops i) /\ length ft = 2 * k /\ length fh = 2 * k /\ length fb = 2 * k /\
    (forall c t h, non_loops i !! c = Some (t, h) -> ft !! c = Some t /\ ft !! (c + k) = Some h /\ fh !! c = Some h /\ fh !! (c + k) = Some t /\
      fb !! c = Some (c + k) /\ fb !! (c + k) = Some c).
  Lemma fill_arcs_spec : exists ft fh fb j, fill_arcs tail head k = Some (ft, fh, fb, j) /\ filled (length head) (ft, fh, fb, j).
  Proof.
    unfold fill_arcs.
    match goal with |- context [for_range 0 _ ?body ?init] => destruct (for_range_inv filled body 0 (length head) init) as ([[[ft fh] fb] j] & E & H) end.
    - lia.
    - cbn. rewrite !replicate_length. by repeat split.
    - intros i [[[ft fh] fb] j] Hi (Hj & L1 & L2 & L3 & Hc). destruct (lookup_lt_is_Some_2 tail i ltac:(lia)) as [t Ht]. destruct (lookup_lt_is_Some_2 head i ltac:(lia)) as [h Hh].
      rewrite Ht, Hh, !bind_S. pose proof (non_loops_S _ _ _ Ht Hh) as ES. pose proof (non_loops_le (S i) (length head) ltac:(lia)) as Hle.
      destruct (t =? h).
      + eexists. split; [done|]. unfold filled. rewrite ES, app_nil_r. split_and!; done.
      + rewrite ES, app_length in Hle. cbn [length] in Hle.
        rewrite (wr_Some ft), bind_S by lia. rewrite (wr_Some (<[j:=t]> ft)), bind_S by (rewrite ?insert_length; lia).
        rewrite (wr_Some fh), bind_S by lia. rewrite (wr_Some (<[j:=h]> fh)), bind_S by (rewrite ?insert_length; lia).
        rewrite (wr_Some fb), bind_S by lia. rewrite (wr_Some (<[j:=j + k]> fb)), bind_S by (rewrite ?insert_length; lia).
        eexists. split; [done|]. unfold filled. rewrite ES, app_length, !insert_length. cbn [length]. split; [lia|]. split; [done|]. split; [done|]. split; [done|].
        intros c t' h' Hx. assert (c < length (non_loops i) \/ (c = j /\ t' = t /\ h' = h)) as [Hlt|(-> & -> & ->)].
        { destruct (decide (c < length (non_loops i))) as [?|Hge]; [by left|]. right. rewrite lookup_app_r in Hx by lia. apply list_lookup_singleton_Some in Hx as [E1 E2]. simplify_eq. split; [lia|done]. }
        * rewrite lookup_app_l in Hx by done. specialize (Hc _ _ _ Hx). rewrite !list_lookup_insert_ne by lia. done.
        * split_and!; first [rewrite list_lookup_insert by (rewrite ?insert_length; lia); done | rewrite list_lookup_insert_ne by lia; rewrite list_lookup_insert by lia; done].
    - exists ft, fh, fb, j. by split.
  Qed.

  Context (n : nat) (Ht : forall x, x ∈ tail -> x < n) (Hh : forall x, x ∈ head -> x < n).
  (** Two nodes are joined by an arc of the input. *)
  Definition joined (x y : nat) : Prop := x <> y /\ exists i, (tail !! i = Some x /\ head !! i = Some y) \/ (tail !! i = Some y /\ head !! i = Some x).

  Lemma non_loops_in t h : (t, h) ∈ non_loops (length head) <-> t <> h /\ exists i, tail !! i = Some t /\ head !! i = Some h.
  Proof.
    unfold non_loops. rewrite take_ge by (rewrite zip_with_length; lia). rewrite elem_of_list_filter. cbn [fst snd]. split.
    - intros [Hne [i Hi]%elem_of_list_lookup]. split; [done|]. apply lookup_zip_with_Some in Hi as (? & ? & [= -> ->] & ? & ?). by exists i.
    - intros [Hne (i & H1 & H2)]. split; [done|]. apply elem_of_list_lookup. exists i. apply lookup_zip_with_Some. eauto.
  Qed.

  Lemma make_graph_fragment_spec asserts : exists g, make_graph_fragment asserts n tail head = Some g /\ fragment_ok g /\ fr_global g = seq 0 n /\
    (forall x y, arc g x y <-> joined x y).
  Proof.
    unfold make_graph_fragment. rewrite count_non_loops_spec, bind_S. destruct fill_arcs_spec as (ft & fh & fb & j & -> & (_ & L1 & L2 & L3 & Hc)). rewrite bind_S. cbv beta iota.
    assert (forall c, c < 2 * k -> exists d t h, (c = d \/ c = d + k) /\ non_loops (length head) !! d = Some (t, h)) as Hcov.
    { intros c Hlt. destruct (decide (c < k)) as [Hck|Hck].
      - destruct (lookup_lt_is_Some_2 (non_loops (length head)) c Hck) as [[t h] E]. exists c, t, h. by split; [left|].
      - destruct (lookup_lt_is_Some_2 (non_loops (length head)) (c - k) ltac:(lia)) as [[t h] E]. exists (c - k), t, h. split; [right; lia|done]. }
    assert (forall d t h, non_loops (length head) !! d = Some (t, h) -> t < n /\ h < n /\ t <> h) as Hb.
    { intros d t h E%elem_of_list_lookup_2. apply non_loops_in in E as [? (i & E1 & E2)]. apply elem_of_list_lookup_2 in E1, E2. auto. }
    assert (arcs_ok n ft fh fb) as Hok.
    { split; [lia|lia| | | |].
      - intros x [c E]%elem_of_list_lookup. destruct (Hcov c) as (d & t & h & Hd & Ed); [apply lookup_lt_Some in E; lia|].
        destruct (Hc _ _ _ Ed) as (A1 & A2 & A3 & A4 & A5 & A6). destruct (Hb _ _ _ Ed) as (B1 & B2 & _). destruct Hd as [-> | ->]; simplify_eq; lia.
      - intros x [c E]%elem_of_list_lookup. destruct (Hcov c) as (d & t & h & Hd & Ed); [apply lookup_lt_Some in E; lia|].
        destruct (Hc _ _ _ Ed) as (A1 & A2 & A3 & A4 & A5 & A6). destruct (Hb _ _ _ Ed) as (B1 & B2 & _). destruct Hd as [-> | ->]; simplify_eq; lia.
      - intros a b E. destruct (Hcov a) as (d & t & h & Hd & Ed); [apply lookup_lt_Some in E; lia|].
        destruct (Hc _ _ _ Ed) as (A1 & A2 & A3 & A4 & A5 & A6). destruct Hd as [-> | ->]; simplify_eq; done.
      - intros a b E. destruct (Hcov a) as (d & t & h & Hd & Ed); [apply lookup_lt_Some in E; lia|].
        destruct (Hc _ _ _ Ed) as (A1 & A2 & A3 & A4 & A5 & A6). destruct Hd as [-> | ->]; simplify_eq; by rewrite A1, A2, A3, A4. }
    destruct (sort_arcs_spec asserts n ft fh fb Hok) as (tail' & head' & back' & fo & -> & Hok' & Hs & Efo & Hends). rewrite bind_S. cbv beta iota.
    rewrite identity_permutation_correct, bind_S. eexists. split; [done|].
    destruct (fragment_of_sorted n (seq 0 n) tail' head' back' ltac:(by rewrite seq_length) Hok' Hs) as (fo' & Efo' & Hf). rewrite Efo in Efo'. simplify_eq.
    split; [done|]. split; [done|]. intros x y. unfold arc. cbn [fr_tail fr_head]. change (ends tail' head' x y <-> joined x y). rewrite Hends. split.
    - intros (c & E1 & E2). destruct (Hcov c) as (d & t & h & Hd & Ed); [apply lookup_lt_Some in E1; lia|].
      destruct (Hc _ _ _ Ed) as (A1 & A2 & A3 & A4 & A5 & A6). apply elem_of_list_lookup_2, non_loops_in in Ed as (Hne & i & I1 & I2).
      destruct Hd as [-> | ->]; simplify_eq; (split; [done|]); exists i; [left|right]; done.
    - intros (Hne & i & [[I1 I2]|[I1 I2]]).
      + assert ((x, y) ∈ non_loops (length head)) as [d Ed]%elem_of_list_lookup by (apply non_loops_in; eauto).
        destruct (Hc _ _ _ Ed) as (A1 & A2 & A3 & A4 & A5 & A6). by exists d.
      + assert ((y, x) ∈ non_loops (length head)) as [d Ed]%elem_of_list_lookup by (apply non_loops_in; eauto).
        destruct (Hc _ _ _ Ed) as (A1 & A2 & A3 & A4 & A5 & A6). by exists (d + k).
  Qed.
End Make.
