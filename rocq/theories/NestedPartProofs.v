(** The parts of a fragment (nested_dissection.cpp:646-723). *)
From stdpp Require Import relations.
From Verif Require Import Base GraphSpec UtilSpec PermutationModel PermutationProofs CchBuildProofs.
From Verif Require Import FlowModel FlowSpec FlowArray NestedModel NestedSpec NestedArcProofs NestedRemoveProofs NestedCompProofs.
Ltac Zify.zify_post_hook ::= idtac.

Lemma slice_spec (v : list nat) b e : b <= e -> e <= length v -> slice v b e = Some (take (e - b) (drop b v)).
Proof. intros H1 H2. unfold slice. rewrite (proj2 (Nat.leb_le b e)), (proj2 (Nat.leb_le e (length v))) by done. done. Qed.
Lemma slice_lookup {T} (v : list T) b e i : i < e - b -> take (e - b) (drop b v) !! i = v !! (b + i).
Proof. intros H. rewrite lookup_take by done. by rewrite lookup_drop. Qed.
Lemma slice_lookup_Some {T} (v : list T) b e i x : take (e - b) (drop b v) !! i = Some x <-> i < e - b /\ v !! (b + i) = Some x.
Proof.
  destruct (decide (i < e - b)) as [H|H].
  - rewrite slice_lookup by done. tauto.
  - rewrite lookup_take_ge by lia. split; [done|]. intros [? _]. lia.
Qed.
Lemma minus_all_spec x v : (forall y, y ∈ v -> x <= y) -> minus_all x v = Some ((fun y => y - x) <$> v).
Proof.
  intros H. unfold minus_all. assert (forallb (fun y => x <=? y) v = true) as ->; [|done].
  apply forallb_forall. intros y Hy. apply Nat.leb_le, H. by apply elem_of_list_In.
Qed.
Lemma all_below_spec n v : (forall y, y ∈ v -> y < n) -> all_below n v = true.
Proof. intros H. apply forallb_forall. intros y Hy. apply Nat.ltb_lt, H. by apply elem_of_list_In. Qed.

Lemma first_out_le g : fragment_ok g -> forall x lo a t, fr_first_out g !! x = Some lo -> fr_tail g !! a = Some t -> (lo <= a <-> x <= t).
Proof.
  intros H x lo a t Hx Ht. apply (fo_tail _ H) in Ht as (l & h & H1 & H2 & H3). destruct (decide (x <= t)) as [Hle|Hgt].
  - pose proof (csr_mono_le _ _ _ x t _ _ (fo_csr _ H) Hle Hx H1). split; [done|lia].
  - pose proof (csr_mono_le _ _ _ (S t) x _ _ (fo_csr _ H) ltac:(lia) H2 Hx). split; [lia|done].
Qed.

Section Parts.
  Context (asserts : bool) (g : fragment) (Hok : fragment_ok g) (Hn : 0 < fr_nodes g).
  Notation n := (fr_nodes g).
  Notation m := (fr_arcs g).
  Context (comp : list (option nat)) (lab : nat -> nat).
  Context (Hlab : forall x, x < n -> comp !! x = Some (Some (lab x))).
  Context (H0 : lab 0 = 0).
  Context (Hmono : forall x y, x <= y -> y < n -> lab x <= lab y).
  Context (Harc : forall x y, arc g x y -> lab x = lab y).
  Context (Hconn : forall x y, x < n -> y < n -> lab x = lab y -> rtc (arc g) x y).

  Lemma first_out_some x : x <= n -> exists lo, fr_first_out g !! x = Some lo /\ lo <= m.
  Proof.
    intros Hx. destruct (lookup_lt_is_Some_2 (fr_first_out g) x) as [lo Hlo]; [rewrite (csr_len _ _ _ (fo_csr _ Hok)); lia|]. exists lo. split; [done|].
    rewrite <- (frag_m g Hok). eapply (csr_mono_le _ _ _ x n); [apply (fo_csr _ Hok)|done|done|apply (csr_last _ _ _ (fo_csr _ Hok))].
  Qed.

  Definition inside (b e x : nat) : Prop := b <= x < e.
  Lemma generate_part_spec b e ab ae : b <= e -> e <= n -> fr_first_out g !! b = Some ab -> fr_first_out g !! e = Some ae ->
    (forall x y, arc g x y -> inside b e x -> inside b e y) ->
    exists part, generate_part asserts g b e ab ae = Some part /\ fragment_ok part /\ fr_global part = take (e - b) (drop b (fr_global g)) /\
      (forall x y, arc part x y <-> x < e - b /\ arc g (b + x) (b + y)).
  Proof.
    intros Hbe Hen Hb He Hcl.
    assert (ab <= ae) as Hab by (eapply (csr_mono_le _ _ _ b e); [apply (fo_csr _ Hok)|done..]).
    destruct (first_out_some e Hen) as (ae' & E & Hae). assert (ae' = ae) as -> by congruence. clear E.
    pose proof (frag_m g Hok) as Hm. pose proof (fo_back_len _ Hok) as Hbl. rewrite Hm in Hbl.
    assert (forall a t, fr_tail g !! a = Some t -> (ab <= a < ae <-> inside b e t)) as Ht.
    { intros a t Et. pose proof (first_out_le g Hok _ _ _ _ Hb Et). pose proof (first_out_le g Hok _ _ _ _ He Et). unfold inside. lia. }
    assert (forall a h, fr_head g !! a = Some h -> ab <= a < ae -> inside b e h) as Hh.
    { intros a h Eh Ha. destruct (frag_tail g Hok a ltac:(lia)) as (t & Et & _). apply (Hcl t h); [by exists a|]. by apply (Ht a). }
    assert (forall a c, fr_back g !! a = Some c -> ab <= a < ae -> ab <= c < ae) as Hbk.
    { intros a c Ec Ha. destruct (frag_head g Hok a ltac:(lia)) as (h & Eh & _). destruct (fo_swap _ Hok _ _ Ec) as [E1 _]. rewrite Eh in E1. apply (Ht _ _ E1). by apply (Hh a). }
    unfold generate_part.
    assert (forall x, x ∈ take (ae - ab) (drop ab (fr_tail g)) -> b <= x < e) as T1.
    { intros x [i [Hi Ex]%slice_lookup_Some]%elem_of_list_lookup. apply (Ht _ _ Ex). lia. }
    assert (forall x, x ∈ take (ae - ab) (drop ab (fr_head g)) -> b <= x < e) as T2.
    { intros x [i [Hi Ex]%slice_lookup_Some]%elem_of_list_lookup. apply (Hh _ _ Ex). lia. }
    assert (forall x, x ∈ take (ae - ab) (drop ab (fr_back g)) -> ab <= x < ae) as T3.
    { intros x [i [Hi Ex]%slice_lookup_Some]%elem_of_list_lookup. apply (Hbk _ _ Ex). lia. }
    rewrite (slice_spec (fr_tail g)), bind_S by (unfold fr_arcs in *; lia). rewrite minus_all_spec, bind_S by (intros y Hy; apply T1 in Hy; lia).
    rewrite all_below_spec by (intros y (z & -> & Hy)%elem_of_list_fmap; apply T1 in Hy; lia). replace (implb asserts true) with true by (by destruct asserts). cbn [chk]. rewrite bind_S.
    rewrite (slice_spec (fr_head g)), bind_S by (unfold fr_arcs in *; lia). rewrite minus_all_spec, bind_S by (intros y Hy; apply T2 in Hy; lia).
    rewrite all_below_spec by (intros y (z & -> & Hy)%elem_of_list_fmap; apply T2 in Hy; lia). replace (implb asserts true) with true by (by destruct asserts). cbn [chk]. rewrite bind_S.
    rewrite (slice_spec (fr_back g)), bind_S by (unfold fr_arcs in *; lia). rewrite minus_all_spec, bind_S by (intros y Hy; apply T3 in Hy; lia).
    rewrite all_below_spec by (intros y (z & -> & Hy)%elem_of_list_fmap; apply T3 in Hy; lia). replace (implb asserts true) with true by (by destruct asserts). cbn [chk]. rewrite bind_S.
    rewrite (slice_spec (fr_global g)), bind_S by (unfold fr_nodes in *; lia).
    set (tl := (fun y => y - b) <$> take (ae - ab) (drop ab (fr_tail g))). set (hd := (fun y => y - b) <$> take (ae - ab) (drop ab (fr_head g))).
    set (bk := (fun y => y - ab) <$> take (ae - ab) (drop ab (fr_back g))).
    assert (forall (v : list nat) d i x, ((fun y => y - d) <$> take (ae - ab) (drop ab v)) !! i = Some x <-> exists y, i < ae - ab /\ v !! (ab + i) = Some y /\ x = y - d) as Hlk.
    { intros v d i x. rewrite list_lookup_fmap, fmap_Some. split.
      - intros (y & [Hi Ey]%slice_lookup_Some & ->). by exists y.
      - intros (y & Hi & Ey & ->). exists y. split; [|done]. apply slice_lookup_Some. done. }
    assert (arcs_ok (e - b) tl hd bk) as Ha.
    { unfold tl, hd, bk. split.
      - rewrite !fmap_length, !take_length, !drop_length. unfold fr_arcs in *. lia.
      - rewrite !fmap_length, !take_length, !drop_length. unfold fr_arcs in *. lia.
      - intros y (z & -> & Hy)%elem_of_list_fmap. apply T1 in Hy. lia.
      - intros y (z & -> & Hy)%elem_of_list_fmap. apply T2 in Hy. lia.
      - intros a c (y & Hi & Ey & ->)%Hlk. pose proof (Hbk _ _ Ey ltac:(lia)) as Hy. apply Hlk. exists (ab + a). split; [lia|]. split; [|lia].
        replace (ab + (y - ab)) with y by lia. by apply (fo_back _ Hok).
      - intros a c (y & Hi & Ey & ->)%Hlk. pose proof (Hbk _ _ Ey ltac:(lia)) as Hy. destruct (fo_swap _ Hok _ _ Ey) as [S1 S2].
        rewrite !list_lookup_fmap, !slice_lookup by lia. replace (ab + (y - ab)) with y by lia. by rewrite S1, S2. }
    assert (StronglySorted le tl) as Hs.
    { apply sorted_pairwise. intros i j x y Hij (x' & Hi & Ex & ->)%Hlk (y' & Hj & Ey & ->)%Hlk. pose proof (frag_sorted g (ab + i) (ab + j) x' y' Hok ltac:(lia) Ex Ey). lia. }
    destruct (fragment_of_sorted (e - b) (take (e - b) (drop b (fr_global g))) tl hd bk) as (fo & -> & Hf); [|done|done|].
    { rewrite take_length, drop_length. unfold fr_nodes in *. lia. }
    rewrite bind_S. eexists. split; [done|]. split; [done|]. split; [done|]. intros x y. unfold arc. cbn [fr_tail fr_head]. split.
    - intros (a & (x' & Hi & Ex & ->)%Hlk & (y' & _ & Ey & ->)%Hlk). pose proof (proj1 (Ht _ _ Ex) ltac:(lia)) as Hx. pose proof (Hh _ _ Ey ltac:(lia)) as Hy. unfold inside in *.
      split; [lia|]. exists (ab + a). replace (b + (x' - b)) with x' by lia. replace (b + (y' - b)) with y' by lia. done.
    - intros (Hx & a & Ex & Ey). pose proof (proj2 (Ht _ _ Ex) ltac:(unfold inside; lia)) as Hi. exists (a - ab). unfold tl, hd. rewrite !Hlk.
      split; [exists (b + x)|exists (b + y)]; (split; [lia|]); replace (ab + (a - ab)) with a by lia; (split; [done|lia]).
  Qed.

  (** A list of good parts for the nodes below [b] *)
  Record good (b : nat) (parts : list fragment) : Prop := {
    gd_part : forall p, p ∈ parts -> fragment_ok p /\ 0 < fr_nodes p /\ connected p;
    gd_global : concat (fr_global <$> parts) = take b (fr_global g);
    gd_adj : forall u v, (exists p, p ∈ parts /\ adjacent p u v) <-> exists x y, x < b /\ arc g x y /\ fr_global g !! x = Some u /\ fr_global g !! y = Some v }.

  Lemma good_snoc b e ab ae parts c : good b parts -> b < e -> e <= n -> fr_first_out g !! b = Some ab -> fr_first_out g !! e = Some ae ->
    (forall x, b <= x < e -> lab x = c) -> (forall x, x < b -> lab x < c) -> (forall x, e <= x < n -> c < lab x) ->
    exists part, generate_part asserts g b e ab ae = Some part /\ good e (parts ++ [part]).
  Proof.
    intros [G1 G2 G3] Hbe Hen Hb He Hc1 Hc2 Hc3.
    assert (forall x, x < n -> (lab x = c <-> inside b e x)) as Hin.
    { intros x Hx. split; [|apply Hc1]. intros E. unfold inside. destruct (decide (x < b)); [specialize (Hc2 x); lia|]. destruct (decide (e <= x)); [specialize (Hc3 x); lia|lia]. }
    assert (forall x y, arc g x y -> inside b e x -> inside b e y) as Hcl.
    { intros x y Hxy Hx. destruct (arc_lt g Hok _ _ Hxy). apply Hin; [done|]. rewrite <- (Harc _ _ Hxy). by apply Hin. }
    destruct (generate_part_spec b e ab ae ltac:(lia) Hen Hb He Hcl) as (part & E & Hok' & Hgl & Ha). exists part. split; [done|].
    assert (fr_nodes part = e - b) as Hpn. { unfold fr_nodes. rewrite Hgl, take_length, drop_length. unfold fr_nodes in *. lia. }
    assert (forall u v, rtc (arc g) u v -> inside b e u -> rtc (arc part) (u - b) (v - b)) as Hr.
    { intros u v H. induction H as [|u w v Huw Hwv IH]; intros Hu; [done|]. pose proof (Hcl _ _ Huw Hu) as Hw. eapply rtc_l; [|by apply IH].
      apply Ha. unfold inside in *. split; [lia|]. replace (b + (u - b)) with u by lia. replace (b + (w - b)) with w by lia. done. }
    split.
    - intros p [Hp|Hp%elem_of_list_singleton]%elem_of_app; [auto|subst p]. split; [done|]. split; [lia|].
      intros x y Hx Hy. rewrite Hpn in *. replace x with (b + x - b) by lia. replace y with (b + y - b) by lia. apply Hr; [|unfold inside; lia].
      apply Hconn; [lia|lia|]. rewrite !Hc1 by lia. done.
    - rewrite fmap_app, concat_app, G2. cbn. rewrite app_nil_r, Hgl. rewrite take_take_drop. f_equal. lia.
    - intros u v. split.
      + intros (p & [Hp|Hp%elem_of_list_singleton]%elem_of_app & Hadj).
        * destruct (proj1 (G3 u v)) as (x & y & Hx & Hxy & Hu & Hv); [by exists p|]. exists x, y. split; [lia|done].
        * subst p. destruct Hadj as (a & x & y & E1 & E2 & E3 & E4). destruct (proj1 (Ha x y)) as [Hx Hxy]; [by exists a|].
          assert (inside b e (b + y)) as Hy by (apply (Hcl _ _ Hxy); unfold inside; lia). unfold inside in Hy.
          rewrite Hgl in E3, E4. rewrite slice_lookup in E3, E4 by lia. exists (b + x), (b + y). split; [lia|done].
      + intros (x & y & Hx & Hxy & Hu & Hv). destruct (decide (x < b)) as [Hlt|Hge].
        * destruct (proj2 (G3 u v)) as (p & Hp & Hadj); [by exists x, y|]. exists p. split; [|done]. rewrite elem_of_app. by left.
        * exists part. split; [rewrite elem_of_app, elem_of_list_singleton; by right|].
          pose proof (Hcl _ _ Hxy ltac:(unfold inside; lia)) as Hy. unfold inside in Hy.
          destruct (proj2 (Ha (x - b) (y - b))) as (a & E1 & E2).
          { split; [lia|]. replace (b + (x - b)) with x by lia. replace (b + (y - b)) with y by lia. done. }
          exists a, (x - b), (y - b). rewrite Hgl, !slice_lookup by lia. replace (b + (x - b)) with x by lia. replace (b + (y - b)) with y by lia. done.
  Qed.

  Lemma skip_arcs_spec c i ae : i < n -> fr_first_out g !! i = Some ae -> (forall x, x < i -> lab x <= c) -> c < lab i ->
    forall k a, k + a = m -> a <= ae -> (forall b t, a <= b < ae -> fr_tail g !! b = Some t -> lab t = c) ->
    skip_arcs asserts g comp (Some c) k a = Some ae.
  Proof.
    intros Hi Hae Hle Hlt. destruct (first_out_some i ltac:(lia)) as (ae' & E' & Haem). assert (ae' = ae) as -> by congruence. clear E'.
    induction k as [|k IH]; intros a Hk Ha Hc; cbn [skip_arcs].
    - f_equal. lia.
    - destruct (frag_tail g Hok a ltac:(lia)) as (t & Et & Htn). rewrite Et, bind_S, (Hlab t Htn), bind_S.
      pose proof (first_out_le g Hok _ _ _ _ Hae Et) as Hiff. destruct (decide (Some (lab t) = Some c)) as [Ec|Ec].
      + injection Ec as Ec. assert (a < ae) as Halt. { destruct (decide (a < ae)); [done|]. assert (i <= t) as Hit by (apply Hiff; lia). pose proof (Hmono i t Hit Htn). lia. }
        destruct (frag_head g Hok a ltac:(lia)) as (h & Eh & Hhn). rewrite Eh, bind_S, (Hlab h Hhn), bind_S.
        assert (lab t = lab h) as Eth by (apply Harc; by exists a). rewrite bool_decide_eq_true_2 by (by rewrite Eth).
        replace (implb asserts true) with true by (by destruct asserts). cbn [chk]. rewrite bind_S. apply IH; [lia|lia|]. intros b t' Hb. apply Hc. lia.
      + f_equal. apply Nat.le_antisymm; [done|]. destruct (decide (ae <= a)); [done|]. exfalso. apply Ec. f_equal. apply (Hc a); [lia|done].
  Qed.

  Lemma generate_parts_spec : exists parts, generate_parts asserts g comp = Some parts /\ good n parts.
  Proof.
    unfold generate_parts. cbv zeta.
    match goal with |- context [for_range 1 _ ?body ?init] =>
      destruct (for_range_inv (fun i '(nb, ab, ae, cur, parts) => exists c, cur = Some c /\ nb < i /\ ae = ab /\ fr_first_out g !! nb = Some ab /\
        (forall x, nb <= x < i -> lab x = c) /\ (forall x, x < nb -> lab x < c) /\ good nb parts) body 1 n init)
        as ([[[[nb ab] ae] cur] parts] & -> & c & -> & Hnb & -> & Hab & Hc1 & Hc2 & Hg) end.
    - lia.
    - exists 0. split; [done|]. split; [lia|]. split; [done|]. split; [apply (csr_first _ _ _ (fo_csr _ Hok))|]. split; [intros x Hx; by replace x with 0 by lia|]. split; [lia|].
      split.
      + intros p Hp. by apply elem_of_nil in Hp.
      + by rewrite take_0.
      + intros u v. split; [intros (p & Hp & _); by apply elem_of_nil in Hp|]. intros (x & y & Hx & _). lia.
    - intros i [[[[nb ab] ae] cur] parts] Hi (c & -> & Hnb & -> & Hab & Hc1 & Hc2 & Hg). unfold part_step. rewrite (Hlab i) by lia. rewrite bind_S.
      case_decide as Ec.
      + injection Ec as Ec. eexists. split; [done|]. exists c. split; [done|]. split; [lia|]. split; [done|]. split; [done|]. split; [|done].
        intros x Hx. destruct (decide (x = i)) as [->|]; [done|]. apply Hc1. lia.
      + assert (c < lab i) as Hci. { pose proof (Hmono nb i ltac:(lia) ltac:(lia)) as Hm. rewrite (Hc1 nb) in Hm by lia. assert (lab i <> c) by congruence. lia. }
        destruct (first_out_some i ltac:(lia)) as (ae & Hae & Haem).
        pose proof (csr_mono_le _ _ _ nb i _ _ (fo_csr _ Hok) ltac:(lia) Hab Hae) as Hle.
        rewrite (skip_arcs_spec c i ae ltac:(lia) Hae).
        * rewrite bind_S. destruct (good_snoc nb i ab ae parts c Hg ltac:(lia) ltac:(lia) Hab Hae Hc1 Hc2) as (part & -> & Hg').
          { intros x Hx. pose proof (Hmono i x ltac:(lia) ltac:(lia)). lia. }
          rewrite bind_S. eexists. split; [done|]. exists (lab i). split; [done|]. split; [lia|]. split; [done|]. split; [done|]. split; [intros x Hx; by replace x with i by lia|].
          split; [|done]. intros x Hx. destruct (decide (x < nb)); [specialize (Hc2 x); lia|]. rewrite Hc1 by lia. done.
        * intros x Hx. destruct (decide (x < nb)) as [Hxb|Hxb]; [specialize (Hc2 x Hxb); lia|]. rewrite Hc1 by lia. done.
        * done.
        * lia.
        * lia.
        * intros b t Hb Et. apply Hc1. pose proof (first_out_le g Hok _ _ _ _ Hab Et). pose proof (first_out_le g Hok _ _ _ _ Hae Et). lia.
    - rewrite bind_S. cbv beta iota. rewrite Nat.max_r by lia.
      destruct (good_snoc nb n ab m parts c Hg ltac:(lia) ltac:(lia) Hab) as (part & -> & Hg').
      { rewrite <- (frag_m g Hok). apply (csr_last _ _ _ (fo_csr _ Hok)). }
      { done. } { done. } { lia. }
      rewrite bind_S. eexists. split; done.
  Qed.
End Parts.

(** ** All together *)
Record decomposed (g : fragment) (parts : list fragment) : Prop := {
  dc_part : forall p, p ∈ parts -> fragment_ok p /\ 0 < fr_nodes p /\ connected p;
  dc_global : concat (fr_global <$> parts) ≡ₚ fr_global g;
  dc_adj : forall u v, (exists p, p ∈ parts /\ adjacent p u v) <-> adjacent g u v }.

Lemma relabel_spec asserts g comp inv pre c stack : fragment_ok g -> length pre = fr_nodes g -> oinv g (fr_nodes g) pre stack comp inv c ->
  exists g' comp' lab, relabel asserts g inv comp = Some (g', comp') /\ fragment_ok g' /\ fr_nodes g' = fr_nodes g /\
    (forall p, p < fr_nodes g -> comp' !! p = Some (Some (lab p))) /\ (0 < fr_nodes g -> lab 0 = 0) /\
    (forall p q, p <= q -> q < fr_nodes g -> lab p <= lab q) /\ (forall p q, arc g' p q -> lab p = lab q) /\
    (forall p q, p < fr_nodes g -> q < fr_nodes g -> lab p = lab q -> rtc (arc g') p q) /\
    fr_global g' ≡ₚ fr_global g /\ (forall u v, adjacent g' u v <-> adjacent g u v).
Proof.
  intros Hok Hpl [H1 H2 H3 H4 H5 H6 H7 H8 H9 H10 H11 H12 H13 H14]. set (n := fr_nodes g) in *.
  assert (perm pre) as Hpp by (apply NoDup_bounded_perm; [done|intros x Hx; rewrite Hpl; auto]).
  assert (inverse_of pre inv) as Hinv.
  { split; [lia|]. intros p x. split; [apply H9|]. intros E. destruct (perm_surj pre x Hpp) as [p' Hp']; [apply lookup_lt_Some in E; lia|].
    pose proof (H9 _ _ Hp') as E'. simplify_eq. done. }
  assert (perm inv) as Hpi by (by eapply inverse_of_perm).
  destruct (fragment_arcs g Hok) as [[A1 A2 A3 A4 A5 A6] _].
  unfold relabel.
  destruct (apply_to_elements_correct inv (fr_tail g)) as (tail & E & Htl & Ht); [intros x Hx; rewrite H3; by apply A3|].
  unfold apply_permutation_to_elements_of in E. rewrite E, bind_S. clear E.
  destruct (apply_to_elements_correct inv (fr_head g)) as (head & E & Hhl & Hh); [intros x Hx; rewrite H3; by apply A4|].
  unfold apply_permutation_to_elements_of in E. rewrite E, bind_S. clear E.
  destruct (apply_inverse_permutation_correct inv (fr_global g) Hpi ltac:(unfold n, fr_nodes in *; lia)) as (gl & -> & Hgl & HG). rewrite bind_S.
  destruct (apply_inverse_permutation_correct inv comp Hpi ltac:(lia)) as (comp' & -> & Hcl & [_ Hc]). rewrite bind_S.
  assert (arcs_ok n tail head (fr_back g)) as Hao.
  { split; [lia|lia| | |done|].
    - intros x [a Ha]%elem_of_list_lookup. destruct (lookup_lt_is_Some_2 (fr_tail g) a) as [t Et]; [apply lookup_lt_Some in Ha; lia|]. rewrite (Ht _ _ Et) in Ha.
      apply (perm_lookup_lt _ _ _ Hpi) in Ha. lia.
    - intros x [a Ha]%elem_of_list_lookup. destruct (lookup_lt_is_Some_2 (fr_head g) a) as [t Et]; [apply lookup_lt_Some in Ha; lia|]. rewrite (Hh _ _ Et) in Ha.
      apply (perm_lookup_lt _ _ _ Hpi) in Ha. lia.
    - intros a b Hb. assert (a < fr_arcs g /\ b < fr_arcs g) as [Ha Hb'].
      { pose proof (A5 _ _ Hb) as Hb2. apply lookup_lt_Some in Hb, Hb2. unfold fr_arcs. lia. }
      destruct (A6 _ _ Hb) as [S1 S2].
      destruct (frag_tail g Hok a Ha) as (t & Et & _). destruct (frag_head g Hok a Ha) as (h & Eh & _).
      rewrite Eh in S1. rewrite Et in S2. by rewrite (Ht _ _ S1), (Hh _ _ S2), (Ht _ _ Et), (Hh _ _ Eh). }
  destruct (sort_arcs_spec asserts n tail head (fr_back g) Hao) as (tail' & head' & back' & fo & E & Hao' & Hs & Efo & Hends).
  change (fr_nodes g) with n. rewrite E, bind_S. cbv beta iota. clear E.
  destruct (fragment_of_sorted n gl tail' head' back' ltac:(unfold n, fr_nodes in *; lia) Hao' Hs) as (fo' & Efo' & Hok'). rewrite Efo in Efo'. injection Efo' as <-.
  set (g' := mkFragment gl fo tail' head' back') in *.
  assert (fr_nodes g' = n) as Hn by (unfold n, fr_nodes in *; cbn; lia).
  assert (forall x p, inv !! x = Some p -> gl !! p = fr_global g !! x) as Kg by (intros x p Hx; symmetry; by apply HG).
  assert (forall x p, inv !! x = Some p -> comp' !! p = comp !! x) as Kc by (intros x p Hx; symmetry; by apply Hc).
  assert (forall p q, arc g' p q <-> exists x y, arc g x y /\ inv !! x = Some p /\ inv !! y = Some q) as Karc.
  { intros p q. change (arc g' p q) with (ends tail' head' p q). rewrite Hends. split.
    - intros (a & Ha & Hb). destruct (lookup_lt_is_Some_2 (fr_tail g) a) as [t Et]; [apply lookup_lt_Some in Ha; lia|].
      destruct (lookup_lt_is_Some_2 (fr_head g) a) as [h Eh]; [apply lookup_lt_Some in Ha; lia|].
      exists t, h. rewrite <- (Ht _ _ Et), <- (Hh _ _ Eh). split; [by exists a|done].
    - intros (x & y & (a & Ex & Ey) & Hx & Hy). exists a. by rewrite (Ht _ _ Ex), (Hh _ _ Ey). }
  set (lab := fun p => match comp' !! p with Some (Some l) => l | _ => 0 end).
  assert (forall p, p < n -> exists x, inv !! x = Some p /\ pre !! p = Some x /\ x ∈ pre /\ exists l, comp !! x = Some (Some l) /\ comp' !! p = Some (Some l) /\ lab p = l) as Kx.
  { intros p Hp. destruct (lookup_lt_is_Some_2 pre p ltac:(lia)) as [x Hx]. pose proof (H9 _ _ Hx) as Hi. exists x. split; [done|]. split; [done|].
    pose proof (elem_of_list_lookup_2 _ _ _ Hx) as Hin. split; [done|]. destruct (H7 _ Hin) as (l & El & _). exists l. split; [done|]. rewrite (Kc _ _ Hi). split; [done|].
    unfold lab. by rewrite (Kc _ _ Hi), El. }
  assert (forall x p, x < n -> inv !! x = Some p -> comp !! x = Some (Some (lab p)) /\ x ∈ pre) as Kl.
  { intros x p Hx Hi. destruct (Kx p) as (x' & Hi' & Hp & Hin & l & E1 & E2 & E3); [apply (perm_lookup_lt _ _ _ Hpi) in Hi; lia|].
    pose proof (perm_inj _ _ _ _ Hpi Hi Hi') as ->. split; [by rewrite E3|done]. }
  assert (forall x, x < n -> exists p, inv !! x = Some p) as Ki by (intros x Hx; apply lookup_lt_is_Some_2; lia).
  exists g', comp', lab. split; [done|]. split; [done|]. split; [done|]. split; [|split; [|split; [|split; [|split; [|split]]]]].
  - intros p Hp. destruct (Kx p Hp) as (x & _ & _ & _ & l & _ & E & <-). done.
  - intros H0. destruct (Kx 0 H0) as (x & _ & Hp & _ & l & E1 & E & <-). rewrite (H13 _ Hp) in E1. congruence.
  - intros p q Hpq Hq. destruct (Kx p ltac:(lia)) as (x & _ & Hp & _ & l & E1 & _ & ->). destruct (Kx q Hq) as (y & _ & Hp' & _ & l' & E1' & _ & ->). by eapply (H12 p q).
  - intros p q (x & y & Hxy & Hx & Hy)%Karc. destruct (arc_lt g Hok _ _ Hxy) as [Hxn Hyn]. destruct (Kl _ _ Hxn Hx) as [Ex Hin]. destruct (Kl _ _ Hyn Hy) as [Ey _].
    destruct (H10 _ _ Hxy Hin) as [_ E]. rewrite Ex, Ey in E. congruence.
  - intros p q Hp Hq Epq. destruct (Kx p Hp) as (x & Hix & _ & Hin & l & E1 & _ & El). destruct (Kx q Hq) as (y & Hiy & _ & Hin' & l' & E1' & _ & El').
    assert (rtc (arc g) x y) as Hr by (apply H11; [done|done|congruence]).
    clear Hin' E1' El' E1 El Epq Hp. revert p Hix Hin. induction Hr as [x|x z y Hxz Hzy IH]; intros p Hix Hin.
    + assert (p = q) as -> by congruence. done.
    + destruct (arc_lt g Hok _ _ Hxz) as [_ Hz]. destruct (Ki z Hz) as [pz Hpz]. eapply rtc_l; [|apply (IH Hiy pz Hpz)]; [apply Karc; eauto|]. by apply (H10 x z).
  - cbn. symmetry. apply permuted_by_Permutation with (p := inv); [done|unfold n, fr_nodes in *; lia|done].
  - intros u v. split.
    + intros (a & p & q & E1 & E2 & E3 & E4). destruct (proj1 (Karc p q)) as (x & y & (b & B1 & B2) & Hx & Hy); [by exists a|].
      cbn [fr_global g'] in E3, E4. rewrite (Kg _ _ Hx) in E3. rewrite (Kg _ _ Hy) in E4. by exists b, x, y.
    + intros (a & x & y & E1 & E2 & E3 & E4). assert (arc g x y) as Hxy by (by exists a). destruct (arc_lt g Hok _ _ Hxy) as [Hxn Hyn].
      destruct (Ki x Hxn) as [p Hp]. destruct (Ki y Hyn) as [q Hq]. destruct (proj2 (Karc p q)) as (b & B1 & B2); [eauto|].
      exists b, p, q. split; [done|]. split; [done|]. cbn. by rewrite (Kg _ _ Hp), (Kg _ _ Hq).
Qed.

Lemma connected_components_spec asserts g : fragment_ok g -> 0 < fr_nodes g -> exists parts, connected_components asserts g = Some parts /\ decomposed g parts.
Proof.
  intros Hok Hn. unfold connected_components. destruct (find_components_spec g Hok) as (comp & inv & pre & c & -> & Hpl & stack & Ho). rewrite bind_S. cbv beta iota.
  destruct (relabel_spec asserts g comp inv pre c stack Hok Hpl Ho) as (g' & comp' & lab & -> & Hok' & En & L1 & L2 & L3 & L4 & L5 & L6 & L7). rewrite bind_S. cbv beta iota.
  rewrite <- En in *. destruct (generate_parts_spec asserts g' Hok' Hn comp' lab L1 (L2 Hn) L3 L4 L5) as (parts & E & [G1 G2 G3]). exists parts. split; [done|]. split.
  - done.
  - rewrite G2, take_ge by done. done.
  - intros u v. rewrite G3, <- L7. split.
    + intros (x & y & _ & (a & E1 & E2) & Hu & Hv). by exists a, x, y.
    + intros (a & x & y & E1 & E2 & E3 & E4). exists x, y. split; [by apply (frag_tail_lt g' Hok' a)|]. split; [by exists a|done].
Qed.
