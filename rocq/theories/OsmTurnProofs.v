(** Turn restrictions (C50). *)
From Verif Require Import Base UtilSpec GraphSpec SortModel SortProofs PermutationModel PermutationProofs GraphUtilModel GraphUtilProofs IdMapperModel OsmGraphModel OsmGraphSpec OsmIdProofs OsmSortProofs OsmLoadProofs OsmTurnModel OsmTurnSpec.
Ltac Zify.zify_post_hook ::= idtac.

(** ** Loops over groups *)
Lemma for_range_each {S} lo hi (f : nat -> S -> option S) s : for_range lo hi f s = for_each (seq lo (hi - lo)) f s.
Proof. unfold for_range. generalize (hi - lo) as n. intros n. revert lo s. induction n as [|n IH]; intros lo s; [done|]. cbn. destruct (f lo s); [|done]. apply IH. Qed.
Lemma for_each_ext' {A S} (l : list A) (f g : A -> S -> option S) s : (forall x s, x ∈ l -> f x s = g x s) -> for_each l f s = for_each l g s.
Proof.
  revert s. induction l as [|x l IH]; intros s H; [done|]. cbn [for_each]. rewrite H by constructor.
  destruct (g x s); cbn; [|done]. apply IH. intros. apply H. by constructor.
Qed.

Lemma sorted_by_lookup {A} (R : A -> A -> Prop) (a : list A) : (forall i j x y, i < j -> a !! i = Some x -> a !! j = Some y -> R x y) -> StronglySorted R a.
Proof.
  induction a as [|x a IH]; intros H; constructor.
  - apply IH. intros i j y z Hij Hy Hz. apply (H (S i) (S j)); [lia|done..].
  - apply Forall_forall. intros y [i Hi]%elem_of_list_lookup. apply (H 0 (S i)); [lia|done..].
Qed.

Lemma NoDup_omap_inj {A B} (f : A -> option B) l : (forall i j a, f i = Some a -> f j = Some a -> i = j) -> NoDup l -> NoDup (omap f l).
Proof.
  intros Hf. induction 1 as [|x l Hx Hl IH]; [constructor|]. cbn. destruct (f x) as [y|] eqn:Ey; [|done]. constructor; [|done].
  rewrite elem_of_list_omap. intros (z & Hz & Hy). assert (z = x) as -> by (by eapply Hf). done.
Qed.

Lemma group_spec std_sort keys n : (forall x, x ∈ keys -> x < n) -> sort_perm (fun x => x) keys (std_sort (seq 0 (length keys))) ->
  exists index first, group std_sort keys n = Some (index, first) /\
    exists L, forall x, x < n -> NoDup (L x) /\ (forall a, a ∈ L x <-> keys !! a = Some x) /\ forall S (f : nat -> S -> option S) s, group_loop first index x f s = for_each (L x) f s.
Proof.
  intros Hb Hstd. unfold group. destruct (compute_sort_permutation_correct (fun x => x) std_sort keys n Hb Hstd) as (idx & -> & Hp & Hsort). rewrite bind_S.
  assert (length idx = length keys) as Hl by (rewrite Hp, seq_length; done).
  assert (perm idx) as Hperm by (unfold perm; by rewrite Hl).
  destruct (apply_permutation_correct idx keys Hperm Hl) as (sorted & -> & Hsl & Hby). rewrite bind_S.
  assert (forall i y, sorted !! i = Some y -> exists a, idx !! i = Some a /\ keys !! a = Some y) as Hget.
  { intros i y Hy. destruct (lookup_lt_is_Some_2 idx i) as [a Ha]; [apply lookup_lt_Some in Hy; lia|]. exists a. split; [done|]. by rewrite <- (Hby _ _ Ha). }
  assert (StronglySorted le sorted) as Hss.
  { apply sorted_by_lookup. intros i j a b Hij Ha Hbb. destruct (Hget _ _ Ha) as (x & Hx & Hx'). destruct (Hget _ _ Hbb) as (y & Hy & Hy'). by apply (Hsort i j x y). }
  assert (forall x, x ∈ sorted -> x < n) as Hsb.
  { intros x [i Hi]%elem_of_list_lookup. destruct (Hget _ _ Hi) as (a & _ & Ha). eapply Hb, elem_of_list_lookup_2; done. }
  destruct (invert_vector_correct sorted n Hss Hsb) as (first & -> & Hfl & Hf0 & Hfn & Hmono & Hin).
  rewrite bind_S. exists idx, first. split; [done|].
  assert (csr n first sorted) as Hcsr.
  { split; [done|done| |done|done]. intros i lo hi Hlo Hhi. apply (Hmono i); [apply lookup_lt_Some in Hhi; lia|done..]. }
  exists (fun x => omap (fun i => idx !! i) (seq (default 0 (first !! x)) (default 0 (first !! S x) - default 0 (first !! x)))). intros x Hx.
  destruct (csr_range n first sorted x Hcsr Hx) as (lo & hi & Hlo & Hhi & Hle & Hhil).
  rewrite Hlo, Hhi. cbn [from_option]. unfold id.
  assert (NoDup idx) as Hnd by (by apply perm_NoDup).
  split; [|split].
  - apply NoDup_omap_inj; [|apply NoDup_seq]. intros i j a Hi Hj. by eapply NoDup_lookup.
  - intros a. rewrite elem_of_list_omap. split.
    + intros (i & Hi%elem_of_seq & Ha). destruct (lookup_lt_is_Some_2 sorted i) as [y Hy]; [lia|].
      assert (y = x) as -> by (apply (Hin x lo hi i y); [done..|lia]). by rewrite <- (Hby _ _ Ha).
    + intros Ha. destruct (perm_surj idx a) as [i Hi]; [done|apply lookup_lt_Some in Ha; lia|]. exists i. split; [|done]. apply elem_of_seq.
      assert (sorted !! i = Some x) as Hs by (by rewrite (Hby _ _ Hi)). assert (lo <= i < hi) by (by apply (Hin x lo hi i x)). lia.
  - intros S f s. unfold group_loop, range_loop. rewrite Hlo, Hhi, !bind_S, bool_decide_eq_true_2 by done. cbn [chk]. rewrite bind_S, for_range_each.
    assert (forall i, i ∈ seq lo (hi - lo) -> i < length idx) as Hir by (intros i ?%elem_of_seq; lia).
    revert s. induction (seq lo (hi - lo)) as [|i l IH]; intros s; [done|]. cbn [for_each omap list_omap].
    destruct (lookup_lt_is_Some_2 idx i) as [a Ha]; [apply Hir; by left|]. rewrite Ha, bind_S. cbn [for_each]. destruct (f a s); [|done]. cbn. apply IH. intros j Hj. apply Hir. by right.
Qed.

Lemma filter_loop (keys : list nat) k l acc : (forall a, a ∈ l -> is_Some (keys !! a)) ->
  for_each l (fun a acc => w ← keys !! a; Some (if decide (w = k) then acc ++ [a] else acc)) acc = Some (acc ++ filter (fun a => keys !! a = Some k) l).
Proof.
  revert acc. induction l as [|a l IH]; intros acc H; [by rewrite app_nil_r|]. cbn [for_each]. destruct (H a) as [w Hw]; [by left|]. rewrite Hw, !bind_S, IH by (intros; apply H; by right).
  rewrite filter_cons. f_equal. destruct (decide (w = k)) as [-> |Hne].
  - rewrite decide_True by done. by rewrite <- app_assoc.
  - rewrite decide_False by congruence. done.
Qed.
Lemma add_loop m i o l turns : i < m -> (forall b, b ∈ l -> b < m) ->
  for_each l (fun b turns => if decide (b <> o) then add_forbidden m i b turns else Some turns) turns = Some (turns ++ map (pair i) (filter (fun b => b <> o) l)).
Proof.
  intros Hi. revert turns. induction l as [|b l IH]; intros turns H; [by rewrite app_nil_r|]. cbn [for_each]. rewrite filter_cons.
  assert (b < m) by (apply H; by left). assert (forall b, b ∈ l -> b < m) by (intros; apply H; by right). destruct (decide (b <> o)).
  - assert (add_forbidden m i b turns = Some (turns ++ [(i, b)])) as -> by (unfold add_forbidden; by rewrite bool_decide_eq_true_2).
    rewrite bind_S, IH by done. cbn [map]. by rewrite <- app_assoc.
  - rewrite bind_S, IH by done. done.
Qed.
Lemma elem_of_pairs (i a b : nat) l : (a, b) ∈ map (pair i) l <-> a = i /\ b ∈ l.
Proof. rewrite elem_of_list_In, in_map_iff. split; [intros (x & H & Hx%elem_of_list_In); by injection H as -> ->|]. intros [-> H%elem_of_list_In]. by exists b. Qed.

Section turns.
Context {F : Type} (turn_matches : turn_direction -> F * F -> F * F -> F * F -> bool).
Context (g : osm_graph (F := F)) (n wn : nat).
Local Notation m := (length (g_head g)).
Context (Hcsr : csr n (g_first_out g) (g_head g)) (Htail : forall i t, g_tail g !! i = Some t -> out_arc (g_first_out g) t i).
Context (Hlt : length (g_tail g) = m) (Hlw : length (g_way g) = m) (Hwb : forall w, w ∈ g_way g -> w < wn).
Context (Hla : length (g_lat g) = n) (Hlo : length (g_lon g) = n) (Hgeo : forall a, a < m -> exists l, inner_points g a l).

Lemma head_lt a y : g_head g !! a = Some y -> y < n.
Proof. intros H. eapply (csr_head _ _ _ Hcsr), elem_of_list_lookup_2. done. Qed.
Lemma tail_lt a x : g_tail g !! a = Some x -> x < n.
Proof. intros H. apply Htail in H as (lo & hi & _ & H & _). apply lookup_lt_Some in H. rewrite (csr_len _ _ _ Hcsr) in H. lia. Qed.

Lemma out_loop v : v < n -> exists l, NoDup l /\ (forall a, a ∈ l <-> g_tail g !! a = Some v) /\ forall S (f : nat -> S -> option S) s, range_loop (g_first_out g) v f s = for_each l f s.
Proof.
  intros Hv. destruct (csr_range _ _ _ _ Hcsr Hv) as (lo & hi & Elo & Ehi & Hle & Hhi). exists (seq lo (hi - lo)). split; [apply NoDup_seq|]. split.
  - intros a. rewrite elem_of_seq. split.
    + intros Ha. destruct (lookup_lt_is_Some_2 (g_tail g) a) as [t Ht]; [lia|]. rewrite Ht. f_equal. eapply out_arc_unique; [exact Hcsr|by apply Htail|]. exists lo, hi. split_and!; [done..|lia|lia].
    + intros Ha. apply Htail in Ha as (lo' & hi' & E1 & E2 & ?). assert (lo' = lo) by congruence. assert (hi' = hi) by congruence. lia.
  - intros S f s. unfold range_loop. rewrite Elo, Ehi, !bind_S, bool_decide_eq_true_2 by done. cbn [chk]. by rewrite bind_S, for_range_each.
Qed.

(** ** The points next to the via node *)
Lemma inner_points_unique a l k : inner_points g a l -> inner_points g a k -> l = k.
Proof. intros (lo & hi & H1 & H2 & _ & _ & H3) (lo' & hi' & H1' & H2' & _ & _ & H3'). congruence. Qed.
Lemma node_at_unique x p q : node_at g x p -> node_at g x q -> p = q.
Proof. intros [H1 H2] [H3 H4]. destruct p, q. cbn in *. congruence. Qed.
Lemma point_before_unique a p q : point_before g a p -> point_before g a q -> p = q.
Proof.
  intros (l & Hl & Hp) (k & Hk & Hq). assert (k = l) as -> by (by eapply inner_points_unique). destruct (last l); [congruence|].
  destruct Hp as (x & Hx & Hp), Hq as (y & Hy & Hq). assert (y = x) as -> by congruence. by eapply node_at_unique.
Qed.
Lemma point_after_unique a p q : point_after g a p -> point_after g a q -> p = q.
Proof.
  intros (l & Hl & Hp) (k & Hk & Hq). assert (k = l) as -> by (by eapply inner_points_unique). destruct (head l); [congruence|].
  destruct Hp as (x & Hx & Hp), Hq as (y & Hy & Hq). assert (y = x) as -> by congruence. by eapply node_at_unique.
Qed.
Lemma node_at_exists x : x < n -> exists p, node_at g x p /\ g_lat g !! x = Some p.1 /\ g_lon g !! x = Some p.2.
Proof.
  intros Hx. destruct (lookup_lt_is_Some_2 (g_lat g) x) as [la H1]; [lia|]. destruct (lookup_lt_is_Some_2 (g_lon g) x) as [lo H2]; [lia|]. by exists (la, lo).
Qed.
Lemma slice_lookup (lo hi k : nat) (A B : list F) : lo + k < hi -> hi <= length A -> length B = length A ->
  exists a b, A !! (lo + k) = Some a /\ B !! (lo + k) = Some b /\ zip (take (hi - lo) (drop lo A)) (take (hi - lo) (drop lo B)) !! k = Some (a, b).
Proof.
  intros Hk HA HB. destruct (lookup_lt_is_Some_2 A (lo + k)) as [a Ha]; [lia|]. destruct (lookup_lt_is_Some_2 B (lo + k)) as [b Hb]; [lia|]. exists a, b. split; [done|]. split; [done|].
  apply lookup_zip_with_Some. exists a, b. split; [done|]. rewrite !lookup_take, !lookup_drop by lia. done.
Qed.
Lemma slice_length (lo hi : nat) (A B : list F) : lo <= hi -> hi <= length A -> length B = length A ->
  length (zip (take (hi - lo) (drop lo A)) (take (hi - lo) (drop lo B))) = hi - lo.
Proof. intros H1 H2 H3. rewrite zip_with_length, !take_length, !drop_length. lia. Qed.

Lemma from_point_spec a : a < m -> exists p, from_point g a = Some p /\ point_before g a p.
Proof.
  intros Ha. destruct (Hgeo a Ha) as (l & Hin). pose proof Hin as (lo & hi & E1 & E2 & [H1 H2] & H3 & H4). unfold from_point. rewrite E1, E2, !bind_S.
  pose proof (slice_length lo hi _ _ H1 H2 H3) as Hl. rewrite H4 in Hl. case_decide as Heq.
  - destruct (lookup_lt_is_Some_2 (g_tail g) a) as [x Hx]; [lia|]. rewrite Hx, bind_S. destruct (node_at_exists x) as (p & Hp & -> & ->); [by eapply tail_lt|]. rewrite !bind_S.
    exists p. split; [by destruct p|]. exists l. split; [done|]. destruct l; [|cbn in Hl; lia]. cbn. by exists x.
  - rewrite bool_decide_eq_true_2 by lia. cbn [chk]. rewrite bind_S.
    destruct (slice_lookup lo hi (hi - lo - 1) (g_mlat g) (g_mlon g)) as (la & lo' & H5 & H6 & H7); [lia|done|done|]. replace (lo + (hi - lo - 1)) with (hi - 1) in H5, H6 by lia.
    rewrite H5, H6, !bind_S. exists (la, lo'). split; [done|]. exists l. split; [done|]. rewrite last_lookup, Hl. rewrite H4 in H7. replace (Nat.pred (hi - lo)) with (hi - lo - 1) by lia. by rewrite H7.
Qed.
Lemma to_point_spec a : a < m -> exists p, to_point g a = Some p /\ point_after g a p.
Proof.
  intros Ha. destruct (Hgeo a Ha) as (l & Hin). pose proof Hin as (lo & hi & E1 & E2 & [H1 H2] & H3 & H4). unfold to_point. rewrite E1, E2, !bind_S.
  pose proof (slice_length lo hi _ _ H1 H2 H3) as Hl. rewrite H4 in Hl. case_decide as Heq.
  - destruct (lookup_lt_is_Some_2 (g_head g) a) as [x Hx]; [lia|]. rewrite Hx, bind_S. destruct (node_at_exists x) as (p & Hp & -> & ->); [by eapply head_lt|]. rewrite !bind_S.
    exists p. split; [by destruct p|]. exists l. split; [done|]. destruct l; [|cbn in Hl; lia]. cbn. by exists x.
  - destruct (slice_lookup lo hi 0 (g_mlat g) (g_mlon g)) as (la & lo' & H5 & H6 & H7); [lia|done|done|]. rewrite Nat.add_0_r in H5, H6.
    rewrite H5, H6, !bind_S. exists (la, lo'). split; [done|]. exists l. split; [done|]. rewrite H4 in H7. destruct l; [done|]. cbn in *. congruence.
Qed.
(** ** The turn that is meant *)
Definition fits (dir : turn_direction) (c : F * F) (a b : nat) : bool :=
  match from_point g a, to_point g b with Some p, Some q => turn_matches dir p c q | _, _ => false end.
Definition fitting (dir : turn_direction) (c : F * F) (from to : list nat) : list (nat * nat) :=
  flat_map (fun a => map (pair a) (filter (fun b => fits dir c a b = true) to)) from.

Lemma last_app_cons {A} (l : list A) x k : last (l ++ x :: k) = last (x :: k).
Proof. induction l as [|y [|z l] IH]; [done|done|]. exact IH. Qed.
Lemma match_loop dir c from to : Forall (fun a => a < m) from -> Forall (fun b => b < m) to -> forall M0,
  for_each from (fun a s =>
      p ← from_point g a;
      for_each to (fun b '(count, found) =>
          q ← to_point g b;
          if turn_matches dir p c q then Some (S count, Some (a, b)) else Some (count, found)) s) (length M0, last M0) =
    Some (length (M0 ++ fitting dir c from to), last (M0 ++ fitting dir c from to)).
Proof.
  intros Hf Ht. induction Hf as [|a from Ha Hf IH]; intros M0; [cbn; by rewrite app_nil_r|]. cbn [for_each].
  destruct (from_point_spec a Ha) as (p & Ep & _). rewrite Ep, bind_S.
  assert (forall M0, for_each to (fun b '(count, found) =>
          q ← to_point g b;
          if turn_matches dir p c q then Some (S count, Some (a, b)) else Some (count, found)) (length M0, last M0) =
     Some (length (M0 ++ map (pair a) (filter (fun b => fits dir c a b = true) to)), last (M0 ++ map (pair a) (filter (fun b => fits dir c a b = true) to)))) as Hin.
  { clear IH Hf M0. induction Ht as [|b to Hb Ht IH]; intros M0; [cbn; by rewrite app_nil_r|]. cbn [for_each].
    destruct (to_point_spec b Hb) as (q & Eq & _). rewrite Eq, bind_S, filter_cons.
    assert (fits dir c a b = turn_matches dir p c q) as -> by (unfold fits; by rewrite Ep, Eq). destruct (turn_matches dir p c q).
    - rewrite bind_S, decide_True by done. specialize (IH (M0 ++ [(a, b)])). rewrite app_length, last_snoc in IH. cbn [length] in IH. rewrite Nat.add_1_r in IH. rewrite IH, <- app_assoc. done.
    - rewrite bind_S, decide_False by done. apply IH. }
  rewrite Hin, bind_S, IH. unfold fitting. cbn [flat_map]. by rewrite app_assoc.
Qed.
Lemma elem_of_fitting dir c from to a b : (a, b) ∈ fitting dir c from to <-> a ∈ from /\ b ∈ to /\ fits dir c a b = true.
Proof.
  unfold fitting. rewrite elem_of_list_In, in_flat_map. split.
  - intros (x & Hx%elem_of_list_In & H%elem_of_list_In). apply elem_of_pairs in H as [-> H]. apply elem_of_list_filter in H as [? ?]. done.
  - intros (Ha & Hb & Hm). exists a. split; [by apply elem_of_list_In|]. apply elem_of_list_In, elem_of_pairs. split; [done|]. by apply elem_of_list_filter.
Qed.
Lemma fitting_NoDup dir c from to : NoDup from -> NoDup to -> NoDup (fitting dir c from to).
Proof.
  intros Hf Ht. unfold fitting. induction Hf as [|a from Ha Hf IH]; [constructor|]. cbn. apply NoDup_app. split; [|split; [|done]].
  - apply (NoDup_fmap_2 (pair a)). by apply NoDup_filter.
  - intros [x y] Hx%elem_of_pairs Hy. destruct Hx as [-> _]. apply (elem_of_fitting dir c from to) in Hy as (? & _). done.
Qed.
Lemma singleton_iff {A} (l : list A) x : NoDup l -> (l = [x] <-> x ∈ l /\ forall y, y ∈ l -> y = x).
Proof.
  intros Hn. split; [intros ->; split; [by left|intros y Hy; by apply elem_of_list_singleton in Hy]|]. intros [Hx Hy].
  destruct l as [|a [|b l]]; [by apply elem_of_nil in Hx|f_equal; apply Hy; by left|]. exfalso. inversion_clear Hn as [|? ? Ha _]. apply Ha.
  assert (a = x) as -> by (apply Hy; by left). assert (b = x) as -> by (apply Hy; right; by left). by left.
Qed.

Lemma choose_turn_spec r v from to : NoDup from -> NoDup to -> (forall a, a ∈ from <-> from_arc g r v a) -> (forall b, b ∈ to <-> to_arc g r v b) -> v < n -> from <> [] -> to <> [] ->
  exists t, choose_turn turn_matches g (r_direction r) v from to = Some t /\ forall u, t = Some u <-> meant turn_matches g r v u.
Proof.
  intros Hnf Hnt Hf Ht Hv Hf0 Ht0.
  assert (Forall (fun a => a < m) from) as Hfm. { apply Forall_forall. intros a Ha. apply Hf in Ha as [H _]. by apply lookup_lt_Some in H. }
  assert (Forall (fun b => b < m) to) as Htm. { apply Forall_forall. intros b Hb. apply Ht in Hb as [H _]. apply lookup_lt_Some in H. lia. }
  assert (forall u, candidate g r v u <-> u.1 ∈ from /\ u.2 ∈ to) as Hc. { intros [a b]. unfold candidate. cbn. by rewrite Hf, Ht. }
  assert (from = [] \/ to = [] \/ (exists a b, from = [a] /\ to = [b]) \/
    choose_turn turn_matches g (r_direction r) v from to =
      (la ← g_lat g !! v; lo ← g_lon g !! v;
      '(count, found) ← for_each from (fun a s =>
          p ← from_point g a;
          for_each to (fun b '(count, found) =>
              q ← to_point g b;
              if turn_matches (r_direction r) p (la, lo) q then Some (S count, Some (a, b)) else Some (count, found)) s) (0, None);
      if decide (count = 1) then t ← found; Some (Some t) else Some None) /\ (exists a b c, a ∈ from /\ b ∈ to /\ (c ∈ from /\ c <> a \/ c ∈ to /\ c <> b))) as [?|[?|[(a & b & -> & ->)|[-> Hmany]]]]; [|done|done| |].
  { destruct from as [|a from]; [by left|]. right. destruct to as [|b to]; [by left|]. right. destruct from as [|a' from].
    - destruct to as [|b' to]; [left; by exists a, b|]. right. split; [done|]. exists a, b, b'. split; [by left|]. split; [by left|]. right. split; [right; by left|]. intros ->. inversion_clear Hnt as [|? ? H _]. apply H. by left.
    - right. split; [done|]. exists a, b, a'. split; [by left|]. split; [by left|]. left. split; [right; by left|]. intros ->. inversion_clear Hnf as [|? ? H _]. apply H. by left. }
  - exists (Some (a, b)). split; [done|]. assert (candidate g r v (a, b)) as Hab by (apply Hc; split; by left).
    assert (forall u, candidate g r v u -> u = (a, b)) as Hu. { intros [x y] [Hx Hy]%Hc. cbn in *. apply elem_of_list_singleton in Hx, Hy. by subst. }
    intros u. split.
    + intros [= <-]. split; [done|]. by left.
    + intros [H _]. f_equal. symmetry. by apply Hu.
  - destruct (node_at_exists v Hv) as (c & Hcv & -> & ->). rewrite !bind_S.
    pose proof (match_loop (r_direction r) (c.1, c.2) from to Hfm Htm []) as Hml. cbn [length last app] in Hml. rewrite Hml, bind_S. cbv beta iota.
    assert ((c.1, c.2) = c) as -> by (by destruct c). set (M := fitting (r_direction r) c from to).
    assert (NoDup M) as HM by (by apply fitting_NoDup).
    assert (forall u, u ∈ M <-> candidate g r v u /\ right_way turn_matches g r v u) as HMu.
    { intros [a b]. unfold M. rewrite elem_of_fitting, Hc. cbn. split.
      - intros (Ha & Hb & Hm). split; [done|]. rewrite Forall_forall in Hfm, Htm.
        destruct (from_point_spec a (Hfm _ Ha)) as (p & Ep & Hp). destruct (to_point_spec b (Htm _ Hb)) as (q & Eq & Hq).
        unfold fits in Hm. rewrite Ep, Eq in Hm. by exists p, c, q.
      - intros [[Ha Hb] (p & c' & q & Hp & Hc' & Hq & Hm)]. cbn in *. split; [done|]. split; [done|]. rewrite Forall_forall in Hfm, Htm.
        destruct (from_point_spec a (Hfm _ Ha)) as (p' & Ep & Hp'). destruct (to_point_spec b (Htm _ Hb)) as (q' & Eq & Hq').
        unfold fits. rewrite Ep, Eq. assert (p' = p) as -> by (by eapply point_before_unique). assert (q' = q) as -> by (by eapply point_after_unique). assert (c = c') as -> by (by eapply node_at_unique). done. }
    assert (forall u, meant turn_matches g r v u <-> u ∈ M /\ forall y, y ∈ M -> y = u) as Hme.
    { intros u. split.
      - intros [Hu [Hone|[Hr Hone]]].
        + exfalso. destruct Hmany as (a & b & d & Ha & Hb & Hd). assert ((a, b) = u) as <- by (apply Hone; by apply Hc).
          destruct Hd as [[Hd Hne]|[Hd Hne]]; [assert ((d, b) = (a, b)) by (apply Hone; by apply Hc)|assert ((a, d) = (a, b)) by (apply Hone; by apply Hc)]; congruence.
        + split; [by apply HMu|]. intros y [Hy1 Hy2]%HMu. by apply Hone.
      - intros [[Hu Hr]%HMu Hone]. split; [done|]. right. split; [done|]. intros y Hy1 Hy2. apply Hone. by apply HMu. }
    case_decide as Hlen.
    + destruct M as [|u [|? ?]] eqn:EM; [done| |done]. cbn. eexists. split; [done|]. intros w. rewrite Hme, <- (singleton_iff [u] w) by done. split; [by intros [= <-]|by intros [= ->]].
    + eexists. split; [done|]. intros u. split; [done|]. intros Hu%Hme. apply singleton_iff in Hu; [|done]. rewrite Hu in Hlen. done.
Qed.

(** ** The turns of a restriction with a via node *)
Context (in_arc first_in : list nat) (Lin : nat -> list nat).
Context (HLin : forall x, x < n -> NoDup (Lin x) /\ (forall a, a ∈ Lin x <-> g_head g !! a = Some x) /\ forall S (f : nat -> S -> option S) s, group_loop first_in in_arc x f s = for_each (Lin x) f s).

Definition bounded (turns : list (nat * nat)) : Prop := Forall (fun t => t.1 < m /\ t.2 < m) turns.
Lemma build_step_spec r v turns : via r = Some v -> v < n -> bounded turns ->
  exists turns', build_step turn_matches g in_arc first_in r turns = Some turns' /\ bounded turns' /\
    forall a b, (a, b) ∈ turns' <-> (a, b) ∈ turns \/ exists t, meant turn_matches g r v (a, t) /\ if mandatory r then g_tail g !! b = Some v /\ b <> t else b = t.
Proof.
  intros Hvia Hv Hb. unfold build_step. rewrite Hvia, bind_S. destruct (HLin v Hv) as (Hn1 & Hin1 & Hloop1). destruct (out_loop v Hv) as (Lo & Hn2 & Hin2 & Hloop2).
  unfold from_candidates. rewrite Hloop1, filter_loop. 2:{ intros a Ha%Hin1. apply lookup_lt_is_Some_2. apply lookup_lt_Some in Ha. lia. }
  rewrite bind_S. cbn [app]. set (from := filter (fun a => g_way g !! a = Some (from_way r)) (Lin v)).
  assert (forall a, a ∈ from <-> from_arc g r v a) as Hf. { intros a. unfold from, from_arc. rewrite elem_of_list_filter, Hin1. tauto. }
  case_decide as Hf0.
  { exists turns. split; [done|]. split; [done|]. intros a b. split; [by left|]. intros [?|(t & [[Ha _] _] & _)]; [done|]. apply Hf in Ha. rewrite Hf0 in Ha. by apply elem_of_nil in Ha. }
  assert (for_each from (fun a _ => y ← g_head g !! a; chk (bool_decide (y = v))) tt = Some tt) as ->.
  { assert (forall a, a ∈ from -> g_head g !! a = Some v) as Hh by (intros a Ha; by apply Hf in Ha as [? _]). clear -Hh. induction from as [|a l IH]; [done|]. cbn [for_each]. rewrite (Hh a) by (by left). rewrite bind_S, bool_decide_eq_true_2 by done. cbn [chk]. rewrite bind_S. apply IH. intros. apply Hh. by right. }
  rewrite bind_S. unfold to_candidates. rewrite Hloop2, filter_loop. 2:{ intros a Ha%Hin2. apply lookup_lt_is_Some_2. apply lookup_lt_Some in Ha. lia. }
  rewrite bind_S. cbn [app]. set (to := filter (fun a => g_way g !! a = Some (to_way r)) Lo).
  assert (forall b, b ∈ to <-> to_arc g r v b) as Ht. { intros b. unfold to, to_arc. rewrite elem_of_list_filter, Hin2. tauto. }
  case_decide as Ht0.
  { exists turns. split; [done|]. split; [done|]. intros a b. split; [by left|]. intros [?|(t & [[_ Ha] _] & _)]; [done|]. apply Ht in Ha. rewrite Ht0 in Ha. by apply elem_of_nil in Ha. }
  assert (for_each to (fun b _ => x ← g_tail g !! b; chk (bool_decide (x = v))) tt = Some tt) as ->.
  { assert (forall a, a ∈ to -> g_tail g !! a = Some v) as Hh by (intros a Ha; by apply Ht in Ha as [? _]). clear -Hh. induction to as [|a l IH]; [done|]. cbn [for_each]. rewrite (Hh a) by (by left). rewrite bind_S, bool_decide_eq_true_2 by done. cbn [chk]. rewrite bind_S. apply IH. intros. apply Hh. by right. }
  rewrite bind_S. destruct (choose_turn_spec r v from to) as (t & -> & Hme); [by apply NoDup_filter|by apply NoDup_filter|done..|]. rewrite bind_S.
  destruct t as [[a t]|].
  - pose proof (proj1 (Hme (a, t)) eq_refl) as Hmat. pose proof Hmat as [[[Ha _] [Hta _]] _]. cbn in Ha, Hta. apply lookup_lt_Some in Ha. pose proof (lookup_lt_Some _ _ _ Hta) as Htl. rewrite Hlt in Htl.
    assert (forall a' t', meant turn_matches g r v (a', t') -> a' = a /\ t' = t) as Huniq by (intros a' t' H%Hme; by injection H as -> ->).
    destruct (mandatory r) eqn:Em.
    + rewrite Hloop2, add_loop; [|done|intros b Hb'%Hin2; apply lookup_lt_Some in Hb'; lia]. eexists. split; [done|]. split.
      * apply Forall_app. split; [done|]. apply Forall_forall. intros [x y] [-> Hy]%elem_of_pairs. apply elem_of_list_filter in Hy as [_ Hy%Hin2]. apply lookup_lt_Some in Hy. cbn. lia.
      * intros x y. rewrite elem_of_app, elem_of_pairs, elem_of_list_filter, Hin2. split.
        -- intros [?|(-> & ? & ?)]; [by left|]. right. by exists t.
        -- intros [?|(t' & H & ? & ?)]; [by left|]. right. apply Huniq in H as [-> ->]. done.
    + unfold add_forbidden. rewrite bool_decide_eq_true_2 by done. cbn [chk]. rewrite bind_S. eexists. split; [done|]. split.
      * apply Forall_app. split; [done|]. by constructor.
      * intros x y. rewrite elem_of_app, elem_of_list_singleton. split.
        -- intros [?|H]; [by left|]. injection H as -> ->. right. by exists t.
        -- intros [?|(t' & H & ->)]; [by left|]. right. by apply Huniq in H as [-> ->].
  - exists turns. split; [done|]. split; [done|]. intros a b. split; [by left|]. intros [?|(t & H & _)]; [done|]. by apply Hme in H.
Qed.

(** ** Missing via nodes *)
Context (index first : list nat) (L : nat -> list nat).
Context (HL : forall w, w < wn -> NoDup (L w) /\ (forall a, a ∈ L w <-> g_way g !! a = Some w) /\ forall S (f : nat -> S -> option S) s, group_loop first index w f s = for_each (L w) f s).

(** The last arc of a list into a node. *)
Definition into (l : list nat) (x : nat) : option nat := last (filter (fun a => g_head g !! a = Some x) l).
Lemma into_cons a l x : into (a :: l) x = match into l x with Some b => Some b | None => if decide (g_head g !! a = Some x) then Some a else None end.
Proof. unfold into. rewrite filter_cons. case_decide; [by rewrite last_cons|]. by destruct (last _). Qed.
Lemma into_Some l x a : into l x = Some a -> a ∈ l /\ g_head g !! a = Some x.
Proof. intros H. apply last_Some_elem_of, elem_of_list_filter in H. tauto. Qed.
Lemma into_None l x : into l x = None <-> forall a, a ∈ l -> g_head g !! a <> Some x.
Proof.
  unfold into. rewrite last_None. split.
  - intros H a Ha Hx. assert (a ∈ filter (fun a => g_head g !! a = Some x) l) as Hin by (by apply elem_of_list_filter). rewrite H in Hin. by apply elem_of_nil in Hin.
  - intros H. destruct (filter _ l) as [|a k] eqn:E; [done|]. exfalso. assert (a ∈ filter (fun a => g_head g !! a = Some x) l) as Hin by (rewrite E; by left).
    apply elem_of_list_filter in Hin as [? ?]. by eapply H.
Qed.

Lemma mark_loop {B} (val : nat -> B) l (h : list B) : length h = n -> (forall a, a ∈ l -> a < m) ->
  exists h', for_each l (fun a h => y ← g_head g !! a; wr h y (val a)) h = Some h' /\ length h' = n /\
    forall x, x < n -> h' !! x = match into l x with Some a => Some (val a) | None => h !! x end.
Proof.
  revert h. induction l as [|a l IH]; intros h Hh Hl; [by exists h|]. cbn [for_each].
  destruct (lookup_lt_is_Some_2 (g_head g) a) as [y Hy]; [apply Hl; by left|]. pose proof (head_lt a y Hy). rewrite Hy, bind_S, (wr_Some h) by lia. rewrite bind_S.
  destruct (IH (<[y := val a]> h)) as (h' & -> & Hl' & Hx); [by rewrite insert_length|intros; apply Hl; by right|]. exists h'. split; [done|]. split; [done|]. intros x Hxn.
  rewrite Hx, into_cons by done. destruct (into l x); [done|]. rewrite Hy. case_decide as Hd.
  - injection Hd as ->. by rewrite list_lookup_insert by lia.
  - by rewrite list_lookup_insert_ne by congruence.
Qed.
Lemma replicate_by_lookup {B} (h : list B) b : length h = n -> (forall x, x < n -> h !! x = Some b) -> h = replicate n b.
Proof. intros Hl H. apply list_eq_by_lookup_lt; [by rewrite replicate_length|]. intros x Hx. rewrite H, lookup_replicate_2 by lia. done. Qed.
Lemma way_arc_lt w a : w < wn -> a ∈ L w -> a < m.
Proof. intros Hw Ha. apply (HL w Hw) in Ha. apply lookup_lt_Some in Ha. lia. Qed.

Definition straight_turn (w a b : nat) : Prop :=
  exists v o, g_way g !! o = Some w /\ g_tail g !! o = Some v /\ into (L w) v = Some a /\ g_tail g !! b = Some v /\ b <> o.
Lemma go_straight_spec w turns : w < wn -> bounded turns ->
  exists turns', go_straight g index first w turns (replicate n None) = Some (turns', replicate n None) /\ bounded turns' /\
    forall a b, (a, b) ∈ turns' <-> (a, b) ∈ turns \/ straight_turn w a b.
Proof.
  intros Hw Hb. unfold go_straight. destruct (HL w Hw) as (Hn & Hin & Hloop). rewrite Hloop.
  destruct (mark_loop Some (L w) (replicate n None)) as (inc & -> & Hil & Hi); [by rewrite replicate_length|by intros; eapply way_arc_lt|]. rewrite bind_S, !Hloop.
  assert (forall x, x < n -> inc !! x = Some (into (L w) x)) as Hinc. { intros x Hx. rewrite Hi by done. destruct (into (L w) x); [done|]. by rewrite lookup_replicate_2. }
  match goal with |- context [for_each (L w) ?body turns] =>
    destruct (for_each_inv (fun pre t => bounded t /\ forall a b, (a, b) ∈ t <-> (a, b) ∈ turns \/
      exists v o, o ∈ pre /\ g_tail g !! o = Some v /\ into (L w) v = Some a /\ g_tail g !! b = Some v /\ b <> o) body (L w) turns) as (turns' & -> & Hb' & Hm) end.
  - split; [done|]. intros a b. split; [by left|]. intros [?|(v & o & Ho & _)]; [done|by apply elem_of_nil in Ho].
  - intros pre o post t El [Hbt Ht]. assert (o ∈ L w) as Ho by (rewrite El; apply elem_of_app; right; left). pose proof (way_arc_lt w o Hw Ho) as Hom.
    destruct (lookup_lt_is_Some_2 (g_tail g) o) as [v Hv]; [lia|]. pose proof (tail_lt o v Hv) as Hvn. rewrite Hv, bind_S, Hinc, bind_S by done.
    assert (forall a b, (exists v o', o' ∈ pre ++ [o] /\ g_tail g !! o' = Some v /\ into (L w) v = Some a /\ g_tail g !! b = Some v /\ b <> o') <->
      (exists v o', o' ∈ pre /\ g_tail g !! o' = Some v /\ into (L w) v = Some a /\ g_tail g !! b = Some v /\ b <> o') \/ (into (L w) v = Some a /\ g_tail g !! b = Some v /\ b <> o)) as Hsnoc.
    { intros a b. split.
      - intros (v' & o' & Ho' & H1 & H2 & H3 & H4). apply elem_of_app in Ho' as [Ho'|Ho']; [left; by exists v', o'|]. apply elem_of_list_singleton in Ho' as ->. right. assert (v' = v) as -> by congruence. done.
      - intros [(v' & o' & Ho' & H)|(H1 & H2 & H3)]; [exists v', o'; split; [apply elem_of_app; by left|done]|]. exists v, o. split; [apply elem_of_app; right; by left|done]. }
    destruct (into (L w) v) as [i|] eqn:Ei.
    + apply into_Some in Ei as [Hi1 Hi2]. destruct (out_loop v Hvn) as (Lo & _ & Hino & ->). rewrite add_loop; [|by eapply way_arc_lt|intros b Hb'%Hino; apply lookup_lt_Some in Hb'; lia].
      eexists. split; [done|]. split.
      * apply Forall_app. split; [done|]. apply Forall_forall. intros [x y] [-> Hy]%elem_of_pairs. apply elem_of_list_filter in Hy as [_ Hy%Hino]. apply lookup_lt_Some in Hy. cbn. split; [by eapply way_arc_lt|lia].
      * intros a b. rewrite Hsnoc, elem_of_app, elem_of_pairs, elem_of_list_filter, Hino, Ht. split.
        -- intros [[?|?]|(-> & ? & ?)]; [by left|by right; left|]. right. right. done.
        -- intros [?|[?|(H1 & ? & ?)]]; [by left; left|by left; right|]. right. by injection H1 as ->.
    + exists t. split; [done|]. split; [done|]. intros a b. rewrite Ht, Hsnoc. split; [tauto|]. intros [?|[?|(? & _)]]; [by left|by right|done].
  - rewrite bind_S. destruct (mark_loop (fun _ => None) (L w) inc) as (inc' & -> & Hil' & Hi'); [done|by intros; eapply way_arc_lt|]. rewrite bind_S.
    assert (inc' = replicate n None) as ->. { apply replicate_by_lookup; [done|]. intros x Hx. rewrite Hi' by done. destruct (into (L w) x) eqn:E; [done|]. by rewrite Hinc, E. }
    exists turns'. split; [done|]. split; [done|]. intros a b. rewrite Hm. unfold straight_turn. by setoid_rewrite Hin.
Qed.

Lemma find_via_spec r : from_way r < wn -> to_way r < wn ->
  exists v v2, find_via g index first (from_way r) (to_way r) (replicate n false) = Some (v, v2, replicate n false) /\
    forall x, (v = Some x /\ v2 = None) <-> exists b, crossing g r b /\ g_tail g !! b = Some x /\ forall b', crossing g r b' -> b' = b.
Proof.
  intros Hf Ht. unfold find_via. destruct (HL _ Hf) as (_ & Hinf & Hloopf). destruct (HL _ Ht) as (Hnt & Hint & Hloopt). rewrite Hloopf.
  destruct (mark_loop (fun _ => true) (L (from_way r)) (replicate n false)) as (h & -> & Hhl & Hh); [by rewrite replicate_length|intros; by eapply (way_arc_lt (from_way r))|]. rewrite bind_S, Hloopt.
  set (P := fun b => exists x, g_tail g !! b = Some x /\ is_Some (into (L (from_way r)) x)).
  assert (forall b, Decision (P b)) as HP.
  { intros b. unfold P. destruct (g_tail g !! b) as [x|]; [|right; by intros (? & ? & _)]. destruct (into (L (from_way r)) x) eqn:E; [left; exists x; rewrite E; eauto|right; intros (y & Hy & H); injection Hy as <-; rewrite E in H; by destruct H]. }
  assert (forall b, crossing g r b <-> b ∈ filter P (L (to_way r))) as Hcr.
  { intros b. rewrite elem_of_list_filter, Hint. unfold crossing, from_arc, to_arc, P. split.
    - intros (a & v & (Ha1 & Ha2) & Hb1 & Hb2). split; [|done]. exists v. split; [done|]. destruct (into (L (from_way r)) v) eqn:E; [by eexists|]. exfalso. eapply into_None; [exact E| |exact Ha1]. by apply Hinf.
    - intros [(x & Hx & [a Ha]) Hb]. apply into_Some in Ha as [Ha1%Hinf Ha2]. by exists a, x. }
  match goal with |- context [for_each (L (to_way r)) ?body ?init] =>
    destruct (for_each_inv (fun pre '(v, v2) => match filter P pre with
        | [] => v = None /\ v2 = None
        | [b] => v = g_tail g !! b /\ v2 = None /\ is_Some v
        | b :: _ => v = g_tail g !! b /\ is_Some v2 /\ is_Some v end) body (L (to_way r)) init) as ([v v2] & -> & Hvv) end.
  - done.
  - intros pre b post [v v2] El Hv. assert (b ∈ L (to_way r)) as Hb by (rewrite El; apply elem_of_app; right; left). pose proof (way_arc_lt _ b Ht Hb) as Hbm.
    destruct (lookup_lt_is_Some_2 (g_tail g) b) as [x Hx]; [lia|]. pose proof (tail_lt b x Hx) as Hxn. rewrite Hx, bind_S, Hh by done. rewrite lookup_replicate_2 by done.
    rewrite filter_app, filter_cons, filter_nil. destruct (into (L (from_way r)) x) as [a|] eqn:Ea; rewrite bind_S.
    + rewrite decide_True by (exists x; rewrite Ea; eauto). destruct (filter P pre) as [|b0 [|b1 k]]; cbn [app].
      * destruct Hv as [-> ->]. eexists. split; [done|]. cbn. rewrite Hx. eauto.
      * destruct Hv as (Ev & -> & [y ->]). eexists. split; [done|]. cbn. eauto.
      * destruct Hv as (Ev & ? & [y ->]). eexists. split; [done|]. cbn. eauto.
    + rewrite decide_False by (intros (y & Hy & H); assert (y = x) as -> by congruence; rewrite Ea in H; by destruct H). rewrite app_nil_r. eexists. split; [done|]. done.
  - rewrite bind_S. cbv beta iota. rewrite Hloopf. destruct (mark_loop (fun _ => false) (L (from_way r)) h) as (h' & -> & Hhl' & Hh'); [done|intros; by eapply (way_arc_lt (from_way r))|]. rewrite bind_S.
    assert (h' = replicate n false) as ->. { apply replicate_by_lookup; [done|]. intros x Hx. rewrite Hh' by done. destruct (into (L (from_way r)) x) eqn:E; [done|]. rewrite Hh, E by done. by apply lookup_replicate_2. }
    exists v, v2. split; [done|]. intros x.
    assert (NoDup (filter P (L (to_way r)))) as HndP by (by apply NoDup_filter). setoid_rewrite Hcr.
    assert ((exists b, b ∈ filter P (L (to_way r)) /\ g_tail g !! b = Some x /\ forall b', b' ∈ filter P (L (to_way r)) -> b' = b) <-> exists b, filter P (L (to_way r)) = [b] /\ g_tail g !! b = Some x) as ->.
    { split; intros (b & H); exists b; [rewrite singleton_iff by done; naive_solver|]. destruct H as [H1 H2]. apply singleton_iff in H1; [|done]. naive_solver. }
    destruct (filter P (L (to_way r))) as [|b0 [|b1 k]].
    + destruct Hvv as [-> ->]. split; [by intros [? _]|by intros (b & ? & _)].
    + destruct Hvv as (-> & -> & _). split; [intros [? _]; by exists b0|]. by intros (b & [= <-] & ?).
    + destruct Hvv as (_ & [y ->] & _). split; [by intros [_ ?]|by intros (b & ? & _)].
Qed.

Definition with_via (r : restriction) (v : nat) : restriction := mkRestr (r_relation r) (mandatory r) (r_direction r) (from_way r) (Some v) (to_way r).
Definition local_ok (r : restriction) : Prop := from_way r < wn /\ to_way r < wn /\ forall v, via r = Some v -> v < n.

Lemma fill_spec rs : Forall local_ok rs -> exists out turns, for_each rs (fill_step g index first) ([], [], replicate n false, replicate n None) = Some (out, turns, replicate n false, replicate n None) /\
  bounded turns /\ (forall r', r' ∈ out <-> exists r v, r ∈ rs /\ place g r v /\ r' = with_via r v) /\
  forall a b, (a, b) ∈ turns <-> exists r, r ∈ rs /\ straight r /\ straight_turn (from_way r) a b.
Proof.
  intros Hok. destruct (for_each_inv (fun pre st => exists out turns, st = (out, turns, replicate n false, replicate n None) /\
    bounded turns /\ (forall r', r' ∈ out <-> exists r v, r ∈ pre /\ place g r v /\ r' = with_via r v) /\
    forall a b, (a, b) ∈ turns <-> exists r, r ∈ pre /\ straight r /\ straight_turn (from_way r) a b) (fill_step g index first) rs ([], [], replicate n false, replicate n None)) as (st & E & out & turns & -> & H).
  - exists [], []. split; [done|]. split; [by constructor|]. split.
    + intros r'. split; [by intros ?%elem_of_nil|]. intros (r & v & Hr & _). by apply elem_of_nil in Hr.
    + intros a b. split; [by intros ?%elem_of_nil|]. intros (r & Hr & _). by apply elem_of_nil in Hr.
  - intros pre r post st El (out & turns & -> & Hb & Ho & Ht).
    assert (local_ok r) as (Hr1 & Hr2 & Hr3) by (rewrite Forall_forall in Hok; apply Hok; rewrite El; apply elem_of_app; right; left).
    assert (forall (Q : restriction -> Prop), (exists r', r' ∈ pre ++ [r] /\ Q r') <-> (exists r', r' ∈ pre /\ Q r') \/ Q r) as Hsnoc.
    { intros Q. split.
      - intros (r' & Hr' & HQ). apply elem_of_app in Hr' as [Hr'|Hr']; [left; by exists r'|]. apply elem_of_list_singleton in Hr' as ->. by right.
      - intros [(r' & Hr' & HQ)|HQ]; [exists r'|exists r]; rewrite elem_of_app, elem_of_list_singleton; auto. }
    assert (forall r', (exists r0 v, r0 ∈ pre ++ [r] /\ place g r0 v /\ r' = with_via r0 v) <-> r' ∈ out \/ exists v, place g r v /\ r' = with_via r v) as Hout.
    { intros r'. rewrite Ho. transitivity (exists r0, r0 ∈ pre ++ [r] /\ exists v, place g r0 v /\ r' = with_via r0 v); [naive_solver|]. rewrite Hsnoc. naive_solver. }
    assert (forall a b, (exists r', r' ∈ pre ++ [r] /\ straight r' /\ straight_turn (from_way r') a b) <-> (a, b) ∈ turns \/ straight r /\ straight_turn (from_way r) a b) as Hturns.
    { intros a b. rewrite Ht. apply (Hsnoc (fun r' => straight r' /\ straight_turn (from_way r') a b)). }
    unfold fill_step. destruct (via r) as [v|] eqn:Ev.
    + assert (forall x, place g r x <-> x = v) as Hpl.
      { intros x. split; [|intros ->; by left]. intros [H|[H _]]; congruence. }
      eexists. split; [done|]. exists (out ++ [r]), turns. split; [done|]. split; [done|]. split.
      * intros r'. rewrite Hout, elem_of_app, elem_of_list_singleton. assert (r = with_via r v) as Er by (destruct r; cbn in *; by rewrite Ev). split.
        -- intros [?| ->]; [by left|]. right. exists v. split; [by apply Hpl|done].
        -- intros [?|(x & ->%Hpl & ->)]; [by left|]. right. done.
      * intros a b. rewrite Hturns. split; [tauto|]. intros [?|[[? _] _]]; [done|congruence].
    + case_decide as Hst.
      * destruct (go_straight_spec (from_way r) turns Hr1 Hb) as (turns' & -> & Hb' & Ht'). rewrite bind_S. cbv beta iota.
        assert (straight r) as Hs by (by split). eexists. split; [done|]. exists out, turns'. split; [done|]. split; [done|]. split.
        -- intros r'. rewrite Hout. split; [by left|]. intros [?|(v & [H|(_ & H & _)] & _)]; [done|congruence|done].
        -- intros a b. rewrite Hturns, Ht'. tauto.
      * destruct (find_via_spec r Hr1 Hr2) as (v & v2 & -> & Hv). rewrite bind_S. cbv beta iota.
        assert (forall x, place g r x <-> v = Some x /\ v2 = None) as Hpl.
        { intros x. rewrite Hv. split; [intros [H|(_ & _ & H)]; [congruence|done]|]. intros H. right. split; [done|]. split; [|done]. intros (_ & ? & ?). by apply Hst. }
        assert (forall a b, (a, b) ∈ turns <-> exists r', r' ∈ pre ++ [r] /\ straight r' /\ straight_turn (from_way r') a b) as Ht'.
        { intros a b. rewrite Hturns. split; [tauto|]. intros [?|[(_ & ? & ?) _]]; [done|]. exfalso. by apply Hst. }
        assert (forall r', v2 <> None \/ v = None -> r' ∈ out <-> exists r0 v, r0 ∈ pre ++ [r] /\ place g r0 v /\ r' = with_via r0 v) as Hno.
        { intros r' Hne. rewrite Hout. split; [by left|]. intros [?|(x & [-> ->]%Hpl & _)]; [done|]. naive_solver. }
        destruct v as [v|]; [destruct v2 as [v2|]|].
        -- eexists. split; [done|]. exists out, turns. split; [done|]. split; [done|]. split; [|done]. intros r'. apply Hno. by left.
        -- eexists. split; [done|]. exists (out ++ [with_via r v]), turns. split; [done|]. split; [done|]. split; [|done].
           intros r'. rewrite Hout, elem_of_app, elem_of_list_singleton. split.
           ++ intros [?| ->]; [by left|]. right. exists v. split; [by apply Hpl|done].
           ++ intros [?|(x & [[= ->] _]%Hpl & ->)]; [by left|by right].
        -- eexists. split; [done|]. exists out, turns. split; [done|]. split; [done|]. split; [|done]. intros r'. apply Hno. by right.
  - exists out, turns. done.
Qed.

(** ** All restrictions *)
Definition last_choice (w x : nat) : option nat := if decide (w < wn) then into (L w) x else None.
Lemma last_choice_selection : selection g last_choice.
Proof.
  intros w x. unfold last_choice. case_decide as Hw.
  - destruct (HL w Hw) as (_ & Hin & _). destruct (into (L w) x) as [a|] eqn:E.
    + apply into_Some in E as [Ha Hx]. apply Hin in Ha. done.
    + intros a Ha Hwa. apply Hin in Hwa. by apply (proj1 (into_None _ _) E a).
  - intros a _ Ha. apply Hw, Hwb. by eapply elem_of_list_lookup_2.
Qed.
Lemma place_lt r v : local_ok r -> place g r v -> v < n.
Proof. intros (_ & _ & H) [Hv|(_ & _ & b & _ & Hb & _)]; [by apply H|by eapply tail_lt]. Qed.

Lemma build_spec rs turns : Forall local_ok rs -> bounded turns -> (forall a b, (a, b) ∈ turns <-> exists r, r ∈ rs /\ straight r /\ straight_turn (from_way r) a b) ->
  forall out, (forall r', r' ∈ out <-> exists r v, r ∈ rs /\ place g r v /\ r' = with_via r v) ->
  exists turns', for_each out (build_step turn_matches g in_arc first_in) turns = Some turns' /\ bounded turns' /\
    forall a b, (a, b) ∈ turns' <-> exists r, r ∈ rs /\ forbids turn_matches g last_choice r a b.
Proof.
  intros Hok Hb Ht out Hout. rewrite Forall_forall in Hok.
  set (Q := fun r' a b => exists v t, via r' = Some v /\ meant turn_matches g r' v (a, t) /\ if mandatory r' then g_tail g !! b = Some v /\ b <> t else b = t).
  destruct (for_each_inv (fun pre t => bounded t /\ forall a b, (a, b) ∈ t <-> (a, b) ∈ turns \/ exists r', r' ∈ pre /\ Q r' a b) (build_step turn_matches g in_arc first_in) out turns) as (turns' & -> & Hb' & Hm).
  - split; [done|]. intros a b. split; [by left|]. intros [?|(r' & H & _)]; [done|by apply elem_of_nil in H].
  - intros pre r' post t El [Hbt Htt]. assert (r' ∈ out) as Hr' by (rewrite El; apply elem_of_app; right; left). apply Hout in Hr' as (r & v & Hr & Hp & Er).
    assert (via r' = Some v) as Ev by (by rewrite Er).
    destruct (build_step_spec r' v t Ev) as (t' & -> & Hbt' & Ht'); [by eapply place_lt; [apply Hok|]|done|]. exists t'. split; [done|]. split; [done|].
    intros a b. rewrite Ht', Htt. unfold Q. split.
    + intros [[?|(r0 & H0 & HQ)]|(x & Hx)]; [by left|right; exists r0; split; [apply elem_of_app; by left|done]|]. right. exists r'. split; [apply elem_of_app; right; by left|]. by exists v, x.
    + intros [?|(r0 & H0 & HQ)]; [by left; left|]. apply elem_of_app in H0 as [H0|H0]; [left; right; by exists r0|]. apply elem_of_list_singleton in H0 as ->. right.
      destruct HQ as (v' & x & Ev' & Hx). assert (v' = v) as -> by congruence. by exists x.
  - exists turns'. split; [done|]. split; [done|]. intros a b. rewrite Hm, Ht. unfold forbids. split.
    + intros [(r & Hr & Hs & H)|(r' & Hr' & v & t & Ev & Hmt & H)].
      * exists r. split; [done|]. right. split; [done|]. destruct H as (v & o & ? & ? & H & ?). exists v, o. unfold last_choice. rewrite decide_True by (by apply Hok). done.
      * apply Hout in Hr' as (r & v' & Hr & Hp & ->). injection Ev as ->. exists r. split; [done|]. left. exists v, t. split; [done|]. split; [exact Hmt|exact H].
    + intros (r & Hr & [(v & t & Hp & Hmt & H)|(Hs & H)]).
      * right. exists (with_via r v). split; [apply Hout; by exists r, v|]. exists v, t. split; [done|]. split; [exact Hmt|exact H].
      * left. exists r. split; [done|]. split; [done|]. destruct H as (v & o & ? & ? & H & ?). exists v, o. unfold last_choice in H. rewrite decide_True in H by (by apply Hok). done.
Qed.
End turns.

(** ** Sorting the turns and removing duplicates *)
Lemma lex_lt_trans p q r : lex_lt p q -> lex_lt q r -> lex_lt p r.
Proof. unfold lex_lt. lia. Qed.
Fixpoint repeats (p : nat * nat) (l : list (nat * nat)) : list bool :=
  match l with [] => [] | q :: l => bool_decide (p = q) :: repeats q l end.
Lemma repeats_length p l : length (repeats p l) = length l.
Proof. revert p. induction l as [|q l IH]; intros p; cbn; [done|]. by rewrite IH. Qed.
Lemma repeats_lookup p l x q q' : (p :: l) !! x = Some q -> l !! x = Some q' -> repeats p l !! x = Some (bool_decide (q = q')).
Proof. revert p x. induction l as [|u l IH]; intros p x Hq Hq'; [done|]. destruct x as [|x]; cbn in *; [by simplify_eq|]. by apply IH. Qed.
Lemma select_map {A B} sel k (f : A -> B) l : select sel k (map f l) = map f (select sel k l).
Proof. revert k. induction l as [|x l IH]; intros [|b k]; cbn; try done. destruct (sel b); cbn; by rewrite IH. Qed.
Lemma select_repeats p l : StronglySorted (fun p q => lex_lt p q \/ p = q) (p :: l) ->
  StronglySorted lex_lt (p :: select negb (repeats p l) l) /\ forall x, x ∈ p :: select negb (repeats p l) l <-> x ∈ p :: l.
Proof.
  revert p. induction l as [|q l IH]; intros p Hs; [split; [repeat constructor|done]|]. apply StronglySorted_inv in Hs as [Hs Hp]. destruct (IH q Hs) as [H1 H2]. cbn [repeats select].
  apply Forall_inv in Hp. case_bool_decide as Hpq; cbn [negb].
  - subst q. split; [done|]. intros x. rewrite H2, !elem_of_cons. tauto.
  - destruct Hp as [Hp|]; [|done]. split.
    + constructor; [done|]. constructor; [done|]. apply StronglySorted_inv in H1 as [_ H1]. eapply Forall_impl; [exact H1|]. intros x Hx. by eapply lex_lt_trans.
    + intros x. rewrite elem_of_cons, H2, (elem_of_cons (q :: l)). done.
Qed.

Lemma sort_turns_spec asserts ac turns : Forall (fun t => t.1 < ac /\ t.2 < ac) turns ->
  exists l, sort_turns asserts ac turns = Some (map fst l, map snd l) /\ StronglySorted lex_lt l /\ forall t, t ∈ l <-> t ∈ turns.
Proof.
  intros Hb. rewrite Forall_forall in Hb. unfold sort_turns, compute_inverse_sort_permutation_first_by_tail_then_by_head_and_apply_sort_to_tail.
  destruct (compute_inverse_sort_permutation_lex_apply_correct asserts ac (map fst turns) ac (map snd turns)) as (r & ri & a2 & -> & Hlex & Hinv & Hby & _).
  { by rewrite !map_length. } { intros x Hx. apply elem_of_list_fmap in Hx as (t & -> & Ht). by apply Hb. } { intros x Hx. apply elem_of_list_fmap in Hx as (t & -> & Ht). by apply Hb. }
  rewrite bind_S. cbv beta iota.
  assert (length r = length turns) as Hlr by (destruct Hlex as [Hp _]; rewrite Hp, seq_length, map_length; lia).
  assert (perm r) as Hpr. { destruct Hlex as [Hp _]. unfold perm. rewrite Hlr. by rewrite map_length in Hp. }
  pose proof (inverse_of_perm _ _ Hpr Hinv) as Hpri. assert (length ri = length turns) as Hlri by (destruct Hinv as [? _]; lia).
  destruct (permuted_exists r turns Hpr Hlr) as (E & HE).
  destruct (apply_inverse_permutation_correct ri (map snd turns) Hpri) as (b2 & Eb & _); [rewrite map_length; lia|]. rewrite Eb, bind_S.
  assert (b2 = map snd E) as ->. { eapply permuted_map; [exact HE|]. eapply apply_inverse_permuted; [done|done| |exact Eb]. rewrite map_length. lia. }
  assert (a2 = map fst E) as ->. { eapply permuted_map; [exact HE|done]. }
  assert (E ≡ₚ turns) as HEE by (eapply permuted_by_Permutation; [exact Hpr| |exact HE]; lia).
  assert (StronglySorted (fun p q => lex_lt p q \/ p = q) E) as HS.
  { apply sorted_by_lookup. intros i j x y Hij Hx Hy. destruct HE as [HEl HE]. destruct (lookup_lt_is_Some_2 r i) as [ri' Hri]; [apply lookup_lt_Some in Hx; lia|]. destruct (lookup_lt_is_Some_2 r j) as [rj Hrj]; [apply lookup_lt_Some in Hy; lia|].
    rewrite (HE _ _ Hri) in Hx. rewrite (HE _ _ Hrj) in Hy. destruct Hlex as [_ Hlex].
    assert (ri' < rj \/ True) as _ by (by right). specialize (Hlex i j ri' rj x.1 x.2 y.1 y.2 Hij Hri Hrj). rewrite !(map_lookup _ turns _ _ Hx), !(map_lookup _ turns _ _ Hy) in Hlex.
    specialize (Hlex eq_refl eq_refl eq_refl eq_refl). unfold lex_lt. destruct x as [x1 x2], y as [y1 y2]. cbn in *. destruct Hlex as [?|(-> & [?|[-> _]])]; [left; by left|left; by right|by right]. }
  set (dup := match E with [] => [] | p :: l => false :: repeats p l end).
  assert (length dup = length E) as Hld. { unfold dup. destruct E; [done|]. cbn. by rewrite repeats_length. }
  match goal with |- context [mapM ?f _] => assert (mapM f (seq 0 (length (map fst E))) = Some dup) as -> end.
  { apply mapM_Some. apply Forall2_same_length_lookup_2; [rewrite seq_length, map_length; lia|]. intros i x d Hx Hd. apply lookup_seq in Hx as [-> Hi]. rewrite map_length in Hi. cbn [Nat.add].
    unfold dup in Hd. destruct i as [|i]; [destruct E as [|p l]; [done|]; cbn in Hd; by simplify_eq|]. rewrite decide_False by lia.
    replace (S i - 1) with i by lia. destruct (lookup_lt_is_Some_2 E i) as [q Hq]; [lia|]. destruct (lookup_lt_is_Some_2 E (S i)) as [q' Hq']; [lia|].
    rewrite (map_lookup fst E _ _ Hq), (map_lookup fst E _ _ Hq'), !bind_S, (map_lookup snd E _ _ Hq), (map_lookup snd E _ _ Hq'), !bind_S.
    destruct E as [|p l]; [done|]. change (repeats p l !! i = Some d) in Hd. change (l !! i = Some q') in Hq'. rewrite (repeats_lookup p l i q q') in Hd by done. injection Hd as <-. f_equal. destruct q as [q1 q2], q' as [q1' q2']. cbn.
    repeat case_bool_decide; try done; naive_solver. }
  rewrite bind_S. unfold remove_element_from_vector_if. rewrite !inplace_filter_correct by (by rewrite map_length). rewrite !bind_S, !select_map.
  exists (select negb dup E). split; [done|]. setoid_rewrite <- HEE. unfold dup. destruct E as [|p l]; [split; [constructor|done]|]. by apply select_repeats.
Qed.

(** ** Local ids *)
Lemma rank_unique ids x k : StronglySorted lt ids -> ids !! k = Some x <-> x ∈ ids /\ k = rank ids x.
Proof. intros Hs. rewrite rank_lookup by done. naive_solver. Qed.
Lemma map_restrictions rm wm nodes ways rs : numbers rm nodes -> numbers wm ways -> StronglySorted lt nodes -> StronglySorted lt ways ->
  exists out, for_each rs (map_restriction rm wm) [] = Some out /\ (forall r', r' ∈ out <-> exists r, r ∈ rs /\ localised nodes ways r r') /\ Forall (local_ok (length nodes) (length ways)) out.
Proof.
  intros Hrm Hwm Hns Hws.
  destruct (for_each_inv (fun pre out => forall r', r' ∈ out <-> exists r, r ∈ pre /\ localised nodes ways r r') (map_restriction rm wm) rs []) as (out & E & Hout).
  - intros r'. split; [by intros ?%elem_of_nil|]. intros (r & Hr & _). by apply elem_of_nil in Hr.
  - intros pre r post out El Hout. unfold map_restriction. rewrite !(nu_local_or _ _ Hwm), !bind_S.
    assert (forall r', (exists r0, r0 ∈ pre ++ [r] /\ localised nodes ways r0 r') <-> r' ∈ out \/ localised nodes ways r r') as Hsnoc.
    { intros r'. rewrite Hout. split.
      - intros (r0 & Hr0 & H). apply elem_of_app in Hr0 as [Hr0|Hr0]; [left; by exists r0|]. apply elem_of_list_singleton in Hr0 as ->. by right.
      - intros [(r0 & Hr0 & H)|H]; [exists r0|exists r]; rewrite elem_of_app, elem_of_list_singleton; auto. }
    setoid_rewrite Hsnoc.
    assert (forall r', localised nodes ways r r' <-> r_relation r' = r_relation r /\ mandatory r' = mandatory r /\ r_direction r' = r_direction r /\
       (from_way r ∈ ways /\ from_way r' = rank ways (from_way r)) /\ (to_way r ∈ ways /\ to_way r' = rank ways (to_way r)) /\
       match via r with None => via r' = None | Some x => x ∈ nodes /\ via r' = Some (rank nodes x) end) as Hloc.
    { intros r'. unfold localised. rewrite !(rank_unique ways) by done. destruct (via r) as [x|]; [|done]. setoid_rewrite (rank_unique nodes x); [|done]. naive_solver. }
    setoid_rewrite Hloc.
    assert (exists mv, (match via r with None => Some (Some None) | Some x => l ← to_local_or rm x None; Some (match l with Some l => Some (Some l) | None => None end) end) = Some mv /\
      match mv with
      | Some v => forall v', (match via r with None => v' = None | Some x => x ∈ nodes /\ v' = Some (rank nodes x) end) <-> v' = v
      | None => forall v', ~ (match via r with None => v' = None | Some x => x ∈ nodes /\ v' = Some (rank nodes x) end) end) as (mv & -> & Hmv).
    { destruct (via r) as [x|]; [|exists (Some None); done]. rewrite (nu_local_or _ _ Hrm), bind_S. case_bool_decide; eexists; (split; [done|]); cbv beta iota; naive_solver. }
    rewrite bind_S. case_bool_decide as Hf; [case_bool_decide as Ht; [destruct mv as [v|]|]|].
    + eexists. split; [done|]. intros r'. rewrite elem_of_app, elem_of_list_singleton. f_equiv. setoid_rewrite (Hmv (via r')). split.
      * intros ->. done.
      * destruct r'. cbn. intros (-> & -> & -> & (_ & ->) & (_ & ->) & ->). done.
    + eexists. split; [done|]. intros r'. split; [by left|]. intros [?|(_ & _ & _ & _ & _ & H)]; [done|]. by apply Hmv in H.
    + eexists. split; [done|]. intros r'. split; [by left|]. intros [?|(_ & _ & _ & _ & [? _] & _)]; done.
    + eexists. split; [done|]. intros r'. split; [by left|]. intros [?|(_ & _ & _ & [? _] & _)]; done.
  - exists out. split; [done|]. split; [done|]. apply Forall_forall. intros r' Hr'. apply Hout in Hr' as (r & Hr & _ & _ & _ & Hf & Ht & Hv).
    split; [by eapply lookup_lt_Some|]. split; [by eapply lookup_lt_Some|]. intros v Ev. destruct (via r) as [x|]; [|congruence]. destruct Hv as (v' & Ev' & Hv'). assert (v' = v) as -> by congruence. by eapply lookup_lt_Some.
Qed.

(** ** The forbidden turns of a graph *)
Lemma forbidden_turns_spec {F} (turn_matches : turn_direction -> F * F -> F * F -> F * F -> bool) std_sort std_sort' asserts (g : osm_graph (F := F)) rm wm nodes ways rs :
  numbers rm nodes -> numbers wm ways -> StronglySorted lt nodes -> StronglySorted lt ways ->
  csr (length nodes) (g_first_out g) (g_head g) -> (forall i t, g_tail g !! i = Some t -> out_arc (g_first_out g) t i) ->
  length (g_tail g) = length (g_head g) -> length (g_way g) = length (g_head g) -> (forall w, w ∈ g_way g -> w < length ways) ->
  length (g_lat g) = length nodes -> length (g_lon g) = length nodes ->
  (rs <> [] -> forall a, a < length (g_head g) -> exists l, inner_points g a l) ->
  sort_perm (fun x => x) (g_way g) (std_sort (seq 0 (length (g_way g)))) ->
  sort_perm (fun x => x) (g_head g) (std_sort' (seq 0 (length (g_head g)))) ->
  exists l c, forbidden_turns turn_matches std_sort std_sort' asserts g rm wm rs = Some (map fst l, map snd l) /\ StronglySorted lex_lt l /\ selection g c /\
    forall a b, (a, b) ∈ l <-> exists r r', r ∈ rs /\ localised nodes ways r r' /\ forbids turn_matches g c r' a b.
Proof.
  intros Hrm Hwm Hns Hws Hcsr Htail Hlt Hlw Hwb Hla Hlo Hgeo Hs1 Hs2. pose proof (csr_len _ _ _ Hcsr) as Hfo.
  destruct (group_spec std_sort (g_way g) (length ways) Hwb Hs1) as (index & first & Eg & L & HL).
  destruct (group_spec std_sort' (g_head g) (length nodes)) as (in_arc & first_in & Eg' & Lin & HLin).
  { by apply (csr_head _ _ _ Hcsr). } { done. }
  assert (selection g (last_choice g (length ways) L)) as Hsel by (by eapply last_choice_selection).
  unfold forbidden_turns. destruct rs as [|r0 rs0].
  - exists [], (last_choice g (length ways) L). split; [done|]. split; [constructor|]. split; [done|]. intros a b. split; [by intros ?%elem_of_nil|]. intros (r & r' & Hr & _). by apply elem_of_nil in Hr.
  - set (rs := r0 :: rs0) in *. assert (forall a, a < length (g_head g) -> exists l, inner_points g a l) as Hgeo' by (by apply Hgeo). clear Hgeo.
    replace (length (g_first_out g) - 1) with (length nodes) by lia. rewrite (nu_count _ _ Hwm).
    destruct (map_restrictions rm wm nodes ways rs) as (lr & -> & Hlr & Hok); [done..|]. rewrite bind_S, Eg, bind_S. cbv beta iota.
    destruct (fill_spec g (length nodes) (length ways) Hcsr Htail Hlt Hlw Hwb Hla Hlo Hgeo' in_arc first_in Lin HLin index first L HL lr Hok) as (out & turns & -> & Hb & Hout & Hturns).
    rewrite bind_S. cbv beta iota. rewrite Eg', bind_S. cbv beta iota.
    destruct (build_spec turn_matches g (length nodes) (length ways) Hcsr Htail Hlt Hlw Hwb Hla Hlo Hgeo' in_arc first_in Lin HLin L lr turns Hok Hb Hturns out Hout) as (turns' & -> & Hb' & Hm).
    rewrite bind_S. destruct (sort_turns_spec asserts (length (g_head g)) turns') as (l & -> & Hsort & Hl); [done|].
    exists l, (last_choice g (length ways) L). split; [done|]. split; [done|]. split; [done|]. intros a b. rewrite Hl, Hm. setoid_rewrite Hlr. naive_solver.
Qed.
