(** * Proofs about the vantage-point tree (C34) *)
From stdpp Require Import list numbers.
From Verif Require Import Base GeoTreeModel GeoTreeSpec.

Section geo.
Context {Pos : Type} (o : dist_ops) (dist : Pos -> Pos -> dD o).
Context (nth_element : nat -> list (point_data Pos (dD o)) -> list (point_data Pos (dD o))).
Context (Ho : dist_laws o) (Hm : metric o dist) (Hnth : nth_element_ok o nth_element).

Local Notation PD := (point_data Pos (dD o)).
Local Notation "a ≼ b" := (dle o a b = true) (at level 70).

Lemma dle_refl a : a ≼ a.
Proof. by destruct (dle_total o Ho a a). Qed.

Lemma dle_false a b : dle o a b = false -> b ≼ a.
Proof. intros H. destruct (dle_total o Ho a b) as [H1|H1]; [congruence|done]. Qed.

Lemma dlt_false a b : dlt o a b = false -> b ≼ a.
Proof. unfold dlt. by destruct (dle o b a). Qed.

(** The shape that [construct_tree] establishes, on a list of positions. *)
Inductive vptree : list Pos -> Prop :=
  | vp_leaf l : length l <= max_points_per_leaf -> vptree l
  | vp_node p l b r :
      max_points_per_leaf < length ((p :: l) ++ (b :: r)) ->
      length (p :: l) = length ((p :: l) ++ (b :: r)) / 2 ->
      (forall x, x ∈ p :: l -> dist p x ≼ dist p b) ->
      (forall x, x ∈ b :: r -> dist p b ≼ dist p x) ->
      vptree (p :: l) -> vptree (b :: r) ->
      vptree ((p :: l) ++ (b :: r)).

(** ** Construction *)
Definition key (p : PD) : Pos * nat := (pd_pos p, pd_id p).
Definition redist (m : Pos) (p : PD) : PD :=
  PointData (pd_pos p) (pd_id p) (dist m (pd_pos p)).

Lemma redist_key m (r : list PD) : key <$> (redist m <$> r) = key <$> r.
Proof. rewrite <- list_fmap_compose. apply list_fmap_ext. by intros ? []. Qed.

Lemma redist_loop (a r2 b : list PD) : forall r1 m,
  (exists x, (r1 ++ r2) !! 0 = Some x /\ pd_pos x = m) \/ r2 = [] ->
  for_n (length r2) (length a + length r1) (set_distance o dist (length a))
    (a ++ r1 ++ r2 ++ b)
  = Some (a ++ r1 ++ (redist m <$> r2) ++ b).
Proof.
  induction r2 as [|y r2 IH]; intros r1 m Hx; [done|].
  destruct Hx as [(x & Hx & Hpx)|?]; [|done].
  cbn [length for_n].
  assert (E1 : (a ++ r1 ++ (y :: r2) ++ b) !! length a = Some x).
  { rewrite lookup_app_r by lia. rewrite Nat.sub_diag.
    destruct r1; cbn in Hx |- *; done. }
  assert (E2 : (a ++ r1 ++ (y :: r2) ++ b) !! (length a + length r1) = Some y).
  { rewrite lookup_app_r by lia. rewrite lookup_app_r by lia.
    by replace (length a + length r1 - length a - length r1) with 0 by lia. }
  assert (E3 : set_distance o dist (length a) (length a + length r1) (a ++ r1 ++ (y :: r2) ++ b)
    = Some (a ++ r1 ++ redist m y :: r2 ++ b)).
  { unfold set_distance. rewrite E1, bind_S, E2, bind_S.
    rewrite wr_Some; [|apply lookup_lt_Some in E2; done].
    replace (length a + length r1) with (length a + (length r1 + 0)) by lia.
    rewrite insert_app_r, insert_app_r. subst m. done. }
  rewrite E3, bind_S.
  specialize (IH (r1 ++ [redist m y]) m).
  rewrite app_length in IH. cbn [length] in IH.
  rewrite <- !app_assoc in IH. cbn [app] in IH.
  replace (S (length a + length r1)) with (length a + (length r1 + 1)) by lia.
  subst m. cbn [fmap list_fmap app]. rewrite IH; [done|].
  left. destruct r1 as [|z r1]; cbn in Hx |- *.
  - injection Hx as ->. eexists; split; [done|]. done.
  - injection Hx as ->. by eexists.
Qed.

Lemma construct_ok fuel : forall a s b,
  length s < fuel ->
  (forall p, p ∈ s -> exists p0, s !! 0 = Some p0 /\ pd_dist p = dist (pd_pos p0) (pd_pos p)) ->
  exists s', construct_tree o dist nth_element fuel (a ++ s ++ b) (length a) (length a + length s)
             = Some (a ++ s' ++ b) /\
    (key <$> s') ≡ₚ (key <$> s) /\
    key <$> (s' !! 0) = key <$> (s !! 0) /\
    vptree (pd_pos <$> s').
Proof.
  induction fuel as [|fuel IH]; intros a s b Hf Hd; [lia|].
  cbn [construct_tree]. replace (length a + length s - length a) with (length s) by lia.
  case_decide as Hbig.
  2:{ exists s. repeat split; [done|]. constructor. rewrite fmap_length. lia. }
  unfold max_points_per_leaf in Hbig.
  destruct s as [|p s]; [cbn in Hbig; lia|].
  assert (Hd' : forall x, x ∈ p :: s -> pd_dist x = dist (pd_pos p) (pd_pos x)).
  { intros x Hx. destruct (Hd x Hx) as (p0 & E & ->). by injection E as <-. }
  clear Hd. cbn [length] in *.
  set (h := S (length s) / 2).
  assert (Hh : 4 <= h /\ h < S (length s) /\ 2 * h <= S (length s)).
  { unfold h. pose proof (Nat.div_mod (S (length s)) 2 ltac:(lia)).
    pose proof (Nat.mod_upper_bound (S (length s)) 2 ltac:(lia)). lia. }
  replace (length a + h - (length a + 1)) with (h - 1) by lia.
  replace (length a + S (length s) - (length a + 1)) with (length s) by lia.
  assert (Etk : take (length a + 1) (a ++ (p :: s) ++ b) = a ++ [p]).
  { rewrite take_add_app by done. done. }
  assert (Edr : drop (length a + 1) (a ++ (p :: s) ++ b) = s ++ b).
  { rewrite drop_add_app by done. done. }
  assert (Edr2 : drop (length a + S (length s)) (a ++ (p :: s) ++ b) = b).
  { rewrite drop_add_app by done. cbn. by rewrite drop_app. }
  rewrite Etk, Edr, Edr2, take_app.
  destruct (Hnth (h - 1) s) as [Hperm Hpart]; [lia|].
  set (t := nth_element (h - 1) s) in *.
  assert (Hlt : length t = length s) by (by rewrite Hperm).
  (* split t at h-1 *)
  destruct (lookup_lt_is_Some_2 t (h - 1)) as [m Hmid]; [lia|].
  assert (Et : t = take (h - 1) t ++ m :: drop h t).
  { replace h with (S (h - 1)) at 2 by lia. symmetry. by apply take_drop_middle. }
  set (L := take (h - 1) t) in *. set (R := drop h t) in *.
  assert (HL : length L = h - 1) by (unfold L; rewrite take_length; lia).
  assert (HR : length R = length s - h) by (unfold R; rewrite drop_length; lia).
  assert (Hin : forall x, x ∈ p :: t -> x ∈ p :: s).
  { intros x Hx. by rewrite Hperm in Hx. }
  assert (Hle1 : forall x, x ∈ p :: L -> dist (pd_pos p) (pd_pos x) ≼ dist (pd_pos p) (pd_pos m)).
  { intros x Hx. apply elem_of_cons in Hx as [->|Hx]; [apply Hm|].
    apply elem_of_list_lookup in Hx as [i Hi].
    assert (i < h - 1) by (apply lookup_lt_Some in Hi; lia).
    unfold L in Hi. rewrite lookup_take in Hi by lia.
    pose proof (Hpart i (h - 1) x m Hi Hmid ltac:(lia)) as Hle.
    rewrite (Hd' x), (Hd' m) in Hle; [done| |].
    - apply Hin. right. by eapply elem_of_list_lookup_2.
    - apply Hin. right. by eapply elem_of_list_lookup_2. }
  assert (Hle2 : forall x, x ∈ m :: R -> dist (pd_pos p) (pd_pos m) ≼ dist (pd_pos p) (pd_pos x)).
  { intros x Hx. apply elem_of_cons in Hx as [->|Hx]; [apply dle_refl|].
    apply elem_of_list_lookup in Hx as [i Hi].
    unfold R in Hi. rewrite lookup_drop in Hi.
    pose proof (Hpart (h - 1) (h + i) m x Hmid Hi ltac:(lia)) as Hle.
    rewrite (Hd' x), (Hd' m) in Hle; [done| |].
    - apply Hin. right. by eapply elem_of_list_lookup_2.
    - apply Hin. right. by eapply elem_of_list_lookup_2. }
  (* left recursion *)
  destruct (IH a (p :: L) (m :: R ++ b)) as (l' & El & Pl & H0l & Vl).
  { cbn [length]. lia. }
  { intros x Hx. exists p. split; [done|]. apply Hd'. apply Hin.
    apply elem_of_cons in Hx as [->|Hx]; [left|right].
    rewrite Et. apply elem_of_app. by left. }
  assert (Earr : (a ++ [p]) ++ t ++ b = a ++ (p :: L) ++ m :: R ++ b).
  { rewrite Et at 1. by rewrite <- !app_assoc. }
  rewrite Earr.
  replace (length a + length (p :: L)) with (length a + h) in El by (cbn [length]; lia).
  rewrite El, bind_S.
  assert (Hl' : length l' = h).
  { apply Permutation_length in Pl. rewrite !fmap_length in Pl. cbn [length] in Pl. lia. }
  (* recomputation *)
  pose proof (redist_loop (a ++ l') (m :: R) b [] (pd_pos m)) as Hloop.
  rewrite app_length, Hl', <- !app_assoc in Hloop. cbn [length app] in Hloop.
  rewrite Nat.add_0_r in Hloop.
  unfold for_range. replace (length a + S (length s) - (length a + h)) with (S (length R)) by lia.
  rewrite Hloop; [|left; by exists m]. clear Hloop. rewrite bind_S.
  (* right recursion *)
  destruct (IH (a ++ l') (redist (pd_pos m) <$> m :: R) b) as (r' & Er & Pr & H0r & Vr).
  { rewrite fmap_length. cbn [length]. lia. }
  { intros x Hx. exists (redist (pd_pos m) m). split; [done|].
    apply elem_of_list_fmap in Hx as (y & -> & _). done. }
  rewrite app_length, fmap_length, Hl', <- !app_assoc in Er.
  replace (length a + h + length (m :: R)) with (length a + S (length s)) in Er
    by (cbn [length]; lia).
  change (redist (pd_pos m) m :: (redist (pd_pos m) <$> R))
    with (redist (pd_pos m) <$> m :: R).
  exists (l' ++ r'). rewrite <- !app_assoc.
  split; [exact Er|].
  rewrite redist_key in Pr.
  split.
  { rewrite fmap_app, Pl, Pr, <- fmap_app. cbn [app fmap list_fmap]. constructor.
    change (key <$> (L ++ m :: R) ≡ₚ key <$> s). by rewrite <- Et, Hperm. }
  destruct l' as [|p1 l1]; [cbn [length] in Hl'; lia|].
  assert (Hr' : length r' = S (length R)).
  { apply Permutation_length in Pr. rewrite !fmap_length in Pr. cbn [length] in Pr. lia. }
  destruct r' as [|m1 r1]; [cbn in Hr'; lia|].
  split; [cbn in H0l |- *; done|].
  rewrite fmap_app. cbn [fmap list_fmap].
  cbn in H0l, H0r. unfold key in H0l at 1 2. injection H0l as Hp1 _.
  unfold key, redist in H0r. cbn in H0r. injection H0r as Hm1 _.
  apply vp_node.
  - rewrite app_length. cbn [length] in Hl', Hr' |- *. rewrite !fmap_length.
    unfold max_points_per_leaf. lia.
  - rewrite app_length. cbn [length] in Hl', Hr' |- *. rewrite !fmap_length.
    rewrite Hl'. unfold h. f_equal. lia.
  - intros x Hx. rewrite Hp1, Hm1.
    assert (Hx' : x ∈ pd_pos <$> p1 :: l1) by done.
    assert (x ∈ pd_pos <$> p :: L) as Hy.
    { assert (E : forall z : list PD, pd_pos <$> z = fst <$> (key <$> z)).
      { intros z. rewrite <- list_fmap_compose. by apply list_fmap_ext. }
      rewrite E in Hx' |- *. by rewrite <- Pl. }
    apply elem_of_list_fmap in Hy as (y & -> & Hy). by apply Hle1.
  - intros x Hx. rewrite Hp1, Hm1.
    assert (Hx' : x ∈ pd_pos <$> m1 :: r1) by done.
    assert (x ∈ pd_pos <$> m :: R) as Hy.
    { assert (E : forall z : list PD, pd_pos <$> z = fst <$> (key <$> z)).
      { intros z. rewrite <- list_fmap_compose. by apply list_fmap_ext. }
      rewrite E in Hx' |- *. by rewrite <- Pr. }
    apply elem_of_list_fmap in Hy as (y & -> & Hy). by apply Hle2.
  - done.
  - done.
Qed.

Lemma build_ok ps :
  exists g, geo_build o dist nth_element ps = Some g /\
    length (point_id g) = length (point_position g) /\
    zip (point_position g) (point_id g) ≡ₚ imap (fun i p => (p, i)) ps /\
    vptree (point_position g).
Proof.
  unfold geo_build.
  set (data := match ps with [] => [] | p0 :: _ => imap (fun i p => PointData p i (dist p0 p)) ps end).
  assert (Hlen : length data = length ps).
  { unfold data. destruct ps; [done|]. by rewrite imap_length. }
  destruct (construct_ok (S (length ps)) [] data []) as (s' & E & P & _ & V).
  { lia. }
  { intros p Hp. unfold data in *. destruct ps as [|p0 ps]; [by apply elem_of_nil in Hp|].
    eexists; split; [done|]. cbn [pd_pos].
    apply elem_of_lookup_imap in Hp as (i & x & -> & _). done. }
  cbn [app length] in E. rewrite !app_nil_r, Nat.add_0_l, Hlen in E.
  rewrite E, bind_S. eexists; split; [done|]. cbn [point_position point_id].
  rewrite !fmap_length. split; [done|]. split; [|done].
  assert (Ez : zip (pd_pos <$> s') (pd_id <$> s') = key <$> s').
  { clear. induction s' as [|x s IH]; cbn; [done|]. by f_equal. }
  rewrite Ez, P. unfold data. destruct ps as [|p0 ps]; [done|].
  rewrite fmap_imap. done.
Qed.

(** ** Queries *)

(** [l] is the part of the arrays that starts at index [b]. *)
Definition seg (g : geo_tree Pos) (b : nat) (l : list (Pos * nat)) : Prop :=
  forall i x, l !! i = Some x ->
    point_position g !! (b + i) = Some x.1 /\ point_id g !! (b + i) = Some x.2.

Lemma seg_app g b l r : seg g b (l ++ r) -> seg g b l /\ seg g (b + length l) r.
Proof.
  intros H. split; intros i x Hx.
  - apply H. by apply lookup_app_l_Some.
  - rewrite <- Nat.add_assoc. apply H. rewrite lookup_app_r by lia.
    by replace (length l + i - length l) with i by lia.
Qed.

(** Inversion of [vptree] on the first components of a list of pairs. *)
Lemma vptree_inv (l : list (Pos * nat)) :
  vptree l.*1 -> max_points_per_leaf < length l ->
  exists p l1 m l2, l = (p :: l1) ++ (m :: l2) /\
    length (p :: l1) = length l / 2 /\
    (forall x, x ∈ p :: l1 -> dist p.1 x.1 ≼ dist p.1 m.1) /\
    (forall x, x ∈ m :: l2 -> dist p.1 m.1 ≼ dist p.1 x.1) /\
    vptree (p :: l1).*1 /\ vptree (m :: l2).*1.
Proof.
  intros H Hlen. inversion H as [l0 Hl|p0 l0 b0 r0 Hbig Hhalf H1 H2 V1 V2 E].
  { subst. rewrite fmap_length in Hl. lia. }
  symmetry in E. change (l.*1 = (p0 :: l0) ++ (b0 :: r0)) in E. apply fmap_app_inv in E as (k1 & k2 & E1 & E2 & ->).
  destruct k1 as [|p l1]; [done|]. destruct k2 as [|m l2]; [done|].
  cbn in E1, E2. injection E1 as -> ->. injection E2 as -> ->.
  exists p, l1, m, l2. split; [done|]. split.
  { rewrite !app_length in Hhalf. cbn [length] in Hhalf. rewrite !fmap_length in Hhalf.
    rewrite app_length. cbn [length]. done. }
  split; [|split; [|done]].
  - intros x Hx. apply H1. change (x.1 ∈ (p :: l1).*1). by apply elem_of_list_fmap_1.
  - intros x Hx. apply H2. change (x.1 ∈ (m :: l2).*1). by apply elem_of_list_fmap_1.
Qed.

(** The two pruning bounds. *)
Lemma prune_left p m x q : dist p x ≼ dist p m ->
  dsub o (dist p q) (dist p m) ≼ dist q x.
Proof.
  intros H. apply (dsub_le o Ho). eapply (dle_trans o Ho); [apply (dist_triangle o dist Hm p x q)|].
  rewrite (dist_sym o dist Hm x q). apply (dadd_mono o Ho); [done|apply dle_refl].
Qed.

Lemma prune_right p m x q : dist p m ≼ dist p x ->
  dsub o (dist p m) (dist p q) ≼ dist q x.
Proof.
  intros H. apply (dsub_le o Ho). eapply (dle_trans o Ho); [exact H|].
  apply (dist_triangle o dist Hm p q x).
Qed.

Definition nn_post (g : geo_tree Pos) (q : Pos) (l : list (Pos * nat)) (cur cur' : nn_result o) : Prop :=
  cur'.2 ≼ cur.2 /\
  (cur' = cur \/ exists x, x ∈ l /\ cur' = (Some x.2, dist q x.1)) /\
  (forall x, x ∈ l -> cur'.2 ≼ dist q x.1).

Lemma nn_post_seq g q l r a b c : nn_post g q l a b -> nn_post g q r b c ->
  nn_post g q (l ++ r) a c.
Proof.
  intros (A1 & A2 & A3) (B1 & B2 & B3). split; [by eapply (dle_trans o Ho)|]. split.
  - destruct B2 as [->|(x & Hx & ->)].
    + destruct A2 as [->|(x & Hx & ->)]; [by left|].
      right. exists x. split; [|done]. apply elem_of_app. by left.
    + right. exists x. split; [|done]. apply elem_of_app. by right.
  - intros x Hx. apply elem_of_app in Hx as [Hx|Hx].
    + eapply (dle_trans o Ho); [exact B1|]. by apply A3.
    + by apply B3.
Qed.

Lemma nn_post_perm g q l r a b : l ≡ₚ r -> nn_post g q l a b -> nn_post g q r a b.
Proof.
  intros Hp (A1 & A2 & A3). split; [done|]. split.
  - destruct A2 as [->|(x & Hx & ->)]; [by left|]. right. exists x. by rewrite <- Hp.
  - intros x Hx. apply A3. by rewrite Hp.
Qed.

Lemma nn_post_skip g q l a : (forall x, x ∈ l -> a.2 ≼ dist q x.1) -> nn_post g q l a a.
Proof. intros H. split; [apply dle_refl|]. split; [by left|done]. Qed.

Lemma nn_leaf_ok g q l : forall b cur, seg g b l ->
  exists cur', for_n (length l) b (nn_leaf o dist g q) cur = Some cur' /\ nn_post g q l cur cur'.
Proof.
  induction l as [|x l IH]; intros b cur Hs.
  - exists cur. split; [done|]. apply nn_post_skip. intros x Hx. by apply elem_of_nil in Hx.
  - cbn [length for_n].
    destruct (Hs 0 x) as [E1 E2]; [done|]. rewrite Nat.add_0_r in E1, E2.
    assert (exists c, nn_leaf o dist g q b cur = Some c /\
              nn_post g q [x] cur c) as (c & Ec & Pc).
    { unfold nn_leaf. rewrite E1, bind_S. cbv zeta. destruct (dle o (dist q x.1) cur.2) eqn:Hle.
      - rewrite E2, bind_S. eexists; split; [done|]. split; [done|]. split.
        + right. exists x. split; [|done]. by apply elem_of_list_singleton.
        + intros y ->%elem_of_list_singleton. apply dle_refl.
      - exists cur. split; [done|]. apply nn_post_skip.
        intros y ->%elem_of_list_singleton. by apply dle_false. }
    rewrite Ec, bind_S.
    destruct (IH (S b) c) as (c' & E' & P').
    { change (x :: l) with ([x] ++ l) in Hs. apply seg_app in Hs as [_ Hs].
      cbn [length] in Hs. by rewrite Nat.add_1_r in Hs. }
    exists c'. split; [done|]. change (x :: l) with ([x] ++ l). by eapply nn_post_seq.
Qed.

Lemma nn_ok g q fuel : forall b l cur,
  length l < fuel -> seg g b l -> vptree l.*1 ->
  exists cur', nn_recursion o dist fuel g b (b + length l) q cur = Some cur' /\
    nn_post g q l cur cur'.
Proof.
  induction fuel as [|fuel IH]; intros b l cur Hf Hs Hv; [lia|].
  cbn [nn_recursion]. replace (b + length l - b) with (length l) by lia.
  case_decide as Hsmall.
  { unfold for_range. replace (b + length l - b) with (length l) by lia. by apply nn_leaf_ok. }
  destruct (vptree_inv l) as (p & l1 & m & l2 & -> & Hhalf & H1 & H2 & V1 & V2); [done|lia|].
  rewrite <- Hhalf.
  destruct (seg_app _ _ _ _ Hs) as [S1 S2].
  destruct (S1 0 p) as [Ep _]; [done|]. rewrite Nat.add_0_r in Ep.
  destruct (S2 0 m) as [Em _]; [done|]. rewrite Nat.add_0_r in Em.
  rewrite Ep, bind_S, Em, bind_S.
  rewrite app_length, Nat.add_assoc.
  rewrite app_length in Hf. cbn [length] in Hf.
  assert (IHl : forall c, exists c', nn_recursion o dist fuel g b (b + length (p :: l1)) q c = Some c' /\
      nn_post g q (p :: l1) c c').
  { intros c. apply IH; [cbn [length]; lia|done|done]. }
  assert (IHr : forall c, exists c', nn_recursion o dist fuel g (b + length (p :: l1))
      (b + length (p :: l1) + length (m :: l2)) q c = Some c' /\ nn_post g q (m :: l2) c c').
  { intros c. apply IH; [cbn [length]; lia|done|done]. }
  clear IH. destruct (dle o (dist p.1 m.1) (dist p.1 q)) eqn:Hside.
  - destruct (IHr cur) as (c1 & -> & P1). rewrite bind_S.
    assert (Hp : (m :: l2) ++ (p :: l1) ≡ₚ (p :: l1) ++ (m :: l2)) by apply Permutation_app_comm.
    destruct (dlt o _ _) eqn:Hlt.
    + destruct (IHl c1) as (c2 & -> & P2). exists c2. split; [done|].
      eapply nn_post_perm; [exact Hp|]. by eapply nn_post_seq.
    + exists c1. split; [done|]. eapply nn_post_perm; [exact Hp|].
      eapply nn_post_seq; [exact P1|]. apply nn_post_skip. intros x Hx.
      eapply (dle_trans o Ho); [by apply dlt_false in Hlt|]. apply prune_left. by apply H1.
  - destruct (IHl cur) as (c1 & -> & P1). rewrite bind_S.
    destruct (dlt o _ _) eqn:Hlt.
    + destruct (IHr c1) as (c2 & -> & P2). exists c2. split; [done|]. by eapply nn_post_seq.
    + exists c1. split; [done|].
      eapply nn_post_seq; [exact P1|]. apply nn_post_skip. intros x Hx.
      eapply (dle_trans o Ho); [by apply dlt_false in Hlt|]. apply prune_right. by apply H2.
Qed.

Definition hit (q : Pos) (radius : dD o) (x : Pos * nat) : option (nat * dD o) :=
  if dle o (dist q x.1) radius then Some (x.2, dist q x.1) else None.

Lemma fa_leaf_ok g q radius l : forall b res, seg g b l ->
  for_n (length l) b (fa_leaf o dist g q radius) res = Some (res ++ omap (hit q radius) l).
Proof.
  induction l as [|x l IH]; intros b res Hs.
  - cbn. by rewrite app_nil_r.
  - cbn [length for_n].
    destruct (Hs 0 x) as [E1 E2]; [done|]. rewrite Nat.add_0_r in E1, E2.
    assert (Hs' : seg g (S b) l).
    { change (x :: l) with ([x] ++ l) in Hs. apply seg_app in Hs as [_ Hs].
      cbn [length] in Hs. by rewrite Nat.add_1_r in Hs. }
    change (omap (hit q radius) (x :: l)) with
      (match hit q radius x with Some y => y :: omap (hit q radius) l | None => omap (hit q radius) l end).
    assert (E3 : fa_leaf o dist g q radius b res =
      Some (match hit q radius x with Some y => res ++ [y] | None => res end)).
    { unfold fa_leaf, hit. rewrite E1, bind_S. cbv zeta.
      destruct (dle o (dist q x.1) radius); [|done]. by rewrite E2. }
    rewrite E3, bind_S, IH by done. destruct (hit q radius x); [|done].
    by rewrite <- app_assoc.
Qed.

Lemma omap_none (q : Pos) radius (l : list (Pos * nat)) :
  (forall x, x ∈ l -> dle o (dist q x.1) radius = false) -> omap (hit q radius) l = [].
Proof.
  induction l as [|x l IH]; intros H; [done|].
  change (omap (hit q radius) (x :: l)) with
    (match hit q radius x with Some y => y :: omap (hit q radius) l | None => omap (hit q radius) l end).
  unfold hit at 1. rewrite H by left. apply IH. intros y Hy. apply H. by right.
Qed.

Lemma fa_ok g q radius fuel : forall b l res,
  length l < fuel -> seg g b l -> vptree l.*1 ->
  fa_recursion o dist fuel g b (b + length l) q radius res
  = Some (res ++ omap (hit q radius) l).
Proof.
  induction fuel as [|fuel IH]; intros b l res Hf Hs Hv; [lia|].
  cbn [fa_recursion]. replace (b + length l - b) with (length l) by lia.
  case_decide as Hsmall.
  { unfold for_range. replace (b + length l - b) with (length l) by lia. by apply fa_leaf_ok. }
  destruct (vptree_inv l) as (p & l1 & m & l2 & -> & Hhalf & H1 & H2 & V1 & V2); [done|lia|].
  rewrite <- Hhalf.
  destruct (seg_app _ _ _ _ Hs) as [S1 S2].
  destruct (S1 0 p) as [Ep _]; [done|]. rewrite Nat.add_0_r in Ep.
  destruct (S2 0 m) as [Em _]; [done|]. rewrite Nat.add_0_r in Em.
  rewrite Ep, bind_S, Em, bind_S.
  rewrite app_length, Nat.add_assoc. rewrite app_length in Hf. cbn [length] in Hf.
  rewrite omap_app, app_assoc.
  assert (E1 : (if dle o (dsub o (dist p.1 q) (dist p.1 m.1)) radius
      then fa_recursion o dist fuel g b (b + length (p :: l1)) q radius res else Some res)
      = Some (res ++ omap (hit q radius) (p :: l1))).
  { destruct (dle o (dsub _ _ _) radius) eqn:Hle.
    - apply IH; [cbn [length]; lia|done|done].
    - rewrite omap_none, app_nil_r; [done|]. intros x Hx.
      destruct (dle o (dist q x.1) radius) eqn:Hr; [|done].
      rewrite <- Hle. symmetry. eapply (dle_trans o Ho); [|exact Hr].
      apply prune_left. by apply H1. }
  cbv zeta. rewrite E1, bind_S.
  destruct (dle o (dsub o (dist p.1 m.1) (dist p.1 q)) radius) eqn:Hle.
  - apply IH; [cbn [length]; lia|done|done].
  - rewrite (omap_none q radius (m :: l2)), app_nil_r; [done|]. intros x Hx.
    destruct (dle o (dist q x.1) radius) eqn:Hr; [|done].
    rewrite <- Hle. symmetry. eapply (dle_trans o Ho); [|exact Hr].
    apply prune_right. by apply H2.
Qed.

Lemma seg_zip g : length (point_id g) = length (point_position g) ->
  seg g 0 (zip (point_position g) (point_id g)).
Proof.
  intros Hl i x Hx. cbn [Nat.add]. apply lookup_zip_with_Some in Hx as (a & b & -> & Ha & Hb).
  done.
Qed.

End geo.
