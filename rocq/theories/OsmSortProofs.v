(** Sorting the arcs of the graph together with their geometry (C49). *)
From Verif Require Import Base UtilSpec GraphSpec SortModel PermutationModel PermutationProofs GraphUtilModel GraphUtilProofs OsmGraphModel OsmGraphSpec OsmIdProofs OsmBuildProofs.
Ltac Zify.zify_post_hook ::= idtac.

Lemma permuted_exists {A} (r : list nat) (E : list A) : perm r -> length r = length E -> exists E', permuted_by r E E'.
Proof.
  intros Hp Hl. assert (Forall (fun i => i < length E) r) as Hf.
  { apply Forall_forall. intros i [k Hk]%elem_of_list_lookup_1. apply (perm_lookup_lt r) in Hk; [lia|done]. }
  clear Hp Hl. induction Hf as [|i r Hi Hr [E' [Hl H]]]; [by exists []|].
  destruct (lookup_lt_is_Some_2 E i Hi) as [a Ha]. exists (a :: E'). split; [cbn; lia|]. intros [|j] x Hx; cbn in *; [congruence|by apply H].
Qed.
Lemma permuted_map {A B} (f : A -> B) r (E E' : list A) v : permuted_by r E E' -> permuted_by r (map f E) v -> v = map f E'.
Proof.
  intros [Hl H] [Hl' H']. apply list_eq_by_lookup_lt; [rewrite map_length; lia|]. intros i Hi.
  destruct (lookup_lt_is_Some_2 r i) as [x Hx]; [lia|]. rewrite (H' i x Hx). change (map f E) with (f <$> E). change (map f E') with (f <$> E'). by rewrite !list_lookup_fmap, (H i x Hx).
Qed.

Lemma starts_lookup {A} (G : list (list A)) a : a <= length G -> (starts 0 G ++ [length (concat G)]) !! a = Some (length (concat (take a G))).
Proof.
  intros Ha. destruct (decide (a = length G)) as [-> |Hne].
  - rewrite lookup_app_r by (rewrite starts_length; lia). by rewrite starts_length, Nat.sub_diag, take_ge by lia.
  - rewrite lookup_app_l by (rewrite starts_length; lia). rewrite <- (take_drop a G) at 1. rewrite starts_app.
    rewrite lookup_app_r by (rewrite starts_length, take_length; lia). rewrite starts_length, take_length, Nat.min_l, Nat.sub_diag by lia.
    destruct (drop a G) eqn:Ed; [|done]. assert (length (drop a G) = 0) as H0 by (by rewrite Ed). rewrite drop_length in H0. lia.
Qed.
Lemma concat_slice {A} (G : list (list A)) a g : G !! a = Some g ->
  length (concat (take (S a) G)) = length (concat (take a G)) + length g /\ take (length g) (drop (length (concat (take a G))) (concat G)) = g /\
  length (concat (take a G)) + length g <= length (concat G).
Proof.
  intros Hg. rewrite (take_S_r G a g Hg), concat_app, app_length. cbn [concat]. rewrite app_nil_r. split; [done|].
  assert (concat G = concat (take a G) ++ g ++ concat (drop (S a) G)) as Ec.
  { rewrite <- (take_drop_middle G a g Hg) at 1. by rewrite concat_app. }
  rewrite Ec. split; [|rewrite !app_length; lia]. rewrite drop_app, take_app. done.
Qed.

Section sort.
Context {F : Type} (geo : road_geometry) (rids wids : list nat).
Local Notation arc := (arc (F := F)).
Local Notation geos := (geos geo).

Lemma sort_geometry_spec r (E E' : list arc) : perm r -> length r = length E -> permuted_by r E E' ->
  sort_geometry r (starts 0 (geos E)) (map fst (concat (geos E))) (map snd (concat (geos E))) =
    Some (starts 0 (geos E') ++ [length (concat (geos E'))], map fst (concat (geos E')), map snd (concat (geos E'))).
Proof.
  intros Hp Hl [Hl' Hby]. unfold sort_geometry. rewrite map_length.
  destruct (for_each_inv (fun pre '(nf, nla, nlo) => nf = starts 0 (geos (take (length pre) E')) /\ nla = map fst (concat (geos (take (length pre) E'))) /\ nlo = map snd (concat (geos (take (length pre) E'))))
    (fun a '(nf, nla, nlo) =>
      lo ← (starts 0 (geos E) ++ [length (concat (geos E))]) !! a; hi ← (starts 0 (geos E) ++ [length (concat (geos E))]) !! S a;
      _ ← chk (bool_decide (lo <= hi /\ hi <= length (concat (geos E)) /\ hi <= length (map snd (concat (geos E)))));
      Some (nf ++ [length nla], nla ++ take (hi - lo) (drop lo (map fst (concat (geos E)))), nlo ++ take (hi - lo) (drop lo (map snd (concat (geos E)))))) r ([], [], [])) as ([[nf nla] nlo] & -> & -> & -> & ->).
  - by cbn.
  - intros pre a post [[nf nla] nlo] Hr (-> & -> & ->).
    assert (r !! length pre = Some a) as Ha by (rewrite Hr; by apply list_lookup_middle).
    pose proof (perm_lookup_lt r _ _ Hp Ha) as Hlt. destruct (lookup_lt_is_Some_2 E a) as [e He]; [lia|].
    assert (E' !! length pre = Some e) as He' by (by rewrite (Hby _ _ Ha)).
    assert (geos E !! a = Some (shown geo (x_geo e))) as Hg.
    { unfold OsmBuildProofs.geos. change (map (fun a => shown geo (x_geo a)) E) with ((fun a => shown geo (x_geo a)) <$> E). by rewrite list_lookup_fmap, He. }
    assert (length (geos E) = length E) as Hgl by (unfold OsmBuildProofs.geos; apply map_length).
    rewrite !starts_lookup by lia. rewrite !bind_S.
    destruct (concat_slice (geos E) a _ Hg) as (H1 & H2 & H3). rewrite H1.
    rewrite bool_decide_eq_true_2 by (rewrite map_length; lia). cbn [chk]. rewrite bind_S.
    replace (length (concat (take a (geos E))) + length (shown geo (x_geo e)) - length (concat (take a (geos E)))) with (length (shown geo (x_geo e))) by lia.
    eexists. split; [done|]. rewrite app_length. cbn [length]. rewrite Nat.add_1_r, (take_S_r E' _ e He').
    assert (geos (take (length pre) E' ++ [e]) = geos (take (length pre) E') ++ [shown geo (x_geo e)]) as -> by (unfold OsmBuildProofs.geos; by rewrite map_app).
    rewrite starts_app, concat_app, !map_app, map_length. cbn [concat starts]. rewrite app_nil_r.
    split; [done|]. change (@map (F*F) F) with (@fmap list list_fmap (F*F) F). rewrite <- !fmap_drop, <- !fmap_take, H2. done.
  - rewrite bind_S. cbv beta iota. rewrite take_ge by lia. by rewrite map_length.
Qed.

(** The result of sorting. *)
Lemma sort_arcs_spec asserts s (E : list arc) : rep geo rids wids s E -> StronglySorted lt rids ->
  exists E' fo s', sort_arcs asserts geo (length rids) s = Some (fo, s') /\ E' ≡ₚ E /\
    a_tail s' = map (fun a => rank rids (x_tail a)) E' /\ a_head s' = map (fun a => rank rids (x_head a)) E' /\ a_dist s' = map x_dist E' /\
    a_way s' = map (fun a => rank wids (x_way a)) E' /\ a_anti s' = map x_anti E' /\
    (keeps_geometry geo = true -> a_first s' = starts 0 (geos E') ++ [length (concat (geos E'))] /\ a_lat s' = map fst (concat (geos E')) /\ a_lon s' = map snd (concat (geos E'))) /\
    (keeps_geometry geo = false -> a_first s' = [] /\ a_lat s' = [] /\ a_lon s' = []) /\
    csr (length rids) fo (a_head s') /\ heads_sorted fo (a_head s') /\
    (forall i t, a_tail s' !! i = Some t -> out_arc fo t i).
Proof.
  intros Hs Hr. unfold sort_arcs, compute_inverse_sort_permutation_first_by_tail_then_by_head_and_apply_sort_to_tail.
  assert (forall x, x ∈ a_tail s -> x < length rids) as Ht.
  { rewrite (re_tail _ _ _ _ _ Hs). intros x Hx. apply elem_of_list_fmap in Hx as (a & -> & Ha). pose proof (re_ids _ _ _ _ _ Hs) as Hi. rewrite Forall_forall in Hi. apply rank_lt. by apply Hi. }
  assert (forall x, x ∈ a_head s -> x < length rids) as Hh.
  { rewrite (re_head _ _ _ _ _ Hs). intros x Hx. apply elem_of_list_fmap in Hx as (a & -> & Ha). pose proof (re_ids _ _ _ _ _ Hs) as Hi. rewrite Forall_forall in Hi. apply rank_lt. by apply Hi. }
  assert (length (a_tail s) = length E) as Hlt by (rewrite (re_tail _ _ _ _ _ Hs); apply map_length).
  assert (length (a_head s) = length E) as Hlh by (rewrite (re_head _ _ _ _ _ Hs); apply map_length).
  destruct (compute_inverse_sort_permutation_lex_apply_correct asserts (length rids) (a_tail s) (length rids) (a_head s)) as (r & ri & a2 & -> & Hlex & Hinv & Hby & Hsorted); [lia|done|done|].
  rewrite bind_S.
  assert (length r = length E) as Hlr by (destruct Hlex as [Hp _]; rewrite Hp, seq_length; lia).
  assert (perm r) as Hpr. { destruct Hlex as [Hp _]. unfold perm. by rewrite Hlr, <- Hlt. }
  pose proof (inverse_of_perm _ _ Hpr Hinv) as Hpri. assert (length ri = length E) as Hlri by (destruct Hinv as [? _]; lia).
  destruct (permuted_exists r E Hpr Hlr) as (E' & HE').
  assert (forall {B} `{Inhabited B} (f : arc -> B) v, v = map f E -> apply_inverse_permutation ri v = Some (map f E')) as Happ.
  { intros B HB f v ->. destruct (apply_inverse_permutation_correct ri (map f E) Hpri) as (v' & Ev & _); [rewrite map_length; lia|]. rewrite Ev. f_equal.
    eapply permuted_map; [exact HE'|]. eapply apply_inverse_permuted; [done|done| |exact Ev]. rewrite map_length. lia. }
  rewrite (Happ _ _ (fun a => rank rids (x_head a)) _ (re_head _ _ _ _ _ Hs)), bind_S.
  rewrite (Happ _ _ x_dist _ (re_dist _ _ _ _ _ Hs)), bind_S.
  rewrite (Happ _ _ (fun a => rank wids (x_way a)) _ (re_way _ _ _ _ _ Hs)), bind_S.
  rewrite (Happ _ _ x_anti _ (re_anti _ _ _ _ _ Hs)), bind_S.
  assert (a2 = map (fun a => rank rids (x_tail a)) E') as Ha2. { eapply permuted_map; [exact HE'|]. by rewrite <- (re_tail _ _ _ _ _ Hs). }
  assert (E' ≡ₚ E) as HEE by (eapply permuted_by_Permutation; [exact Hpr| |exact HE']; lia).
  assert (length E' = length E) as HlE by (by rewrite HEE).
  assert (forall x, x ∈ a2 -> x < length rids) as Hb2.
  { intros x Hx. apply Ht. rewrite (re_tail _ _ _ _ _ Hs). rewrite Ha2 in Hx. change (x ∈ (fun a => rank rids (x_tail a)) <$> E). by rewrite <- HEE. }
  assert (StronglySorted le a2) as Hss by (apply Sorted_StronglySorted; [intros ? ? ?; lia|done]).
  destruct (invert_vector_correct a2 (length rids) Hss Hb2) as (fo & -> & Hfl & Hf0 & Hfn & Hfm & Hfi). rewrite bind_S.
  assert (exists nf nla nlo, (if keeps_geometry geo then old ← invert_permutation ri; sort_geometry old (a_first s) (a_lat s) (a_lon s) else Some (a_first s, a_lat s, a_lon s)) = Some (nf, nla, nlo) /\
    (keeps_geometry geo = true -> nf = starts 0 (geos E') ++ [length (concat (geos E'))] /\ nla = map fst (concat (geos E')) /\ nlo = map snd (concat (geos E'))) /\
    (keeps_geometry geo = false -> nf = [] /\ nla = [] /\ nlo = [])) as (nf & nla & nlo & -> & Hk1 & Hk2).
  { pose proof (re_first _ _ _ _ _ Hs) as H1. pose proof (re_lat _ _ _ _ _ Hs) as H2. pose proof (re_lon _ _ _ _ _ Hs) as H3. destruct (keeps_geometry geo) eqn:Ek.
    - destruct (invert_permutation_correct ri Hpri) as (q & -> & Hq & _). rewrite bind_S. assert (q = r) as -> by (eapply inverse_of_unique; [exact Hq|by apply inverse_of_sym]).
      rewrite H1, H2, H3, (sort_geometry_spec r E E') by done. eexists _, _, _. split; [done|]. by split.
    - eexists _, _, _. split; [done|]. split; [done|]. intros _. rewrite H1, H2, H3. assert (concat (geos E) = []) as ->; [|done].
      clear -Ek. destruct geo; try discriminate. induction E as [|a E IH]; [done|exact IH]. }
  rewrite bind_S. exists E', fo. eexists. split; [done|]. cbn [a_tail a_head a_dist a_way a_anti a_first a_lat a_lon].
  assert (forall i t, a2 !! i = Some t -> out_arc fo t i) as Hout.
  { intros i t Hi. assert (t < length rids) by (eapply Hb2, elem_of_list_lookup_2; done).
    destruct (lookup_lt_is_Some_2 fo t) as [lo Hlo]; [lia|]. destruct (lookup_lt_is_Some_2 fo (S t)) as [hi Hhi]; [lia|].
    exists lo, hi. split; [done|]. split; [done|]. specialize (Hfi t lo hi i t). apply Hfi; done. }
  assert (csr (length rids) fo (map (fun a => rank rids (x_head a)) E')) as Hcsr.
  { split; [done|done| | |].
    - intros i lo hi Hlo Hhi. apply (Hfm i); [|done|done]. apply lookup_lt_Some in Hhi. lia.
    - rewrite Hfn, Ha2, !map_length. done.
    - intros x Hx. apply Hh. rewrite (re_head _ _ _ _ _ Hs). change (x ∈ (fun a => rank rids (x_head a)) <$> E). by rewrite <- HEE. }
  split_and!; [done..| |done].
  intros x e e' a b Hxe Hxe' Hee Ha Hb. destruct (decide (e = e')) as [-> |Hne]; [simplify_eq; lia|].
  assert (forall j y, out_arc fo x j -> map (fun a => rank rids (x_head a)) E' !! j = Some y -> exists ar, E' !! j = Some ar /\ y = rank rids (x_head ar) /\ rank rids (x_tail ar) = x) as Hget.
  { intros j y Hj Hy. change (map (fun a => rank rids (x_head a)) E') with ((fun a => rank rids (x_head a)) <$> E') in Hy. rewrite list_lookup_fmap in Hy. destruct (E' !! j) as [ar|] eqn:Ear; [|done]. cbn in Hy. injection Hy as <-. exists ar. split; [done|]. split; [done|].
    eapply out_arc_unique; [exact Hcsr| |exact Hj]. apply Hout. rewrite Ha2. change (map (fun a => rank rids (x_tail a)) E') with ((fun a => rank rids (x_tail a)) <$> E'). by rewrite list_lookup_fmap, Ear. }
  destruct (Hget e a Hxe Ha) as (ar & Har & -> & Hta). destruct (Hget e' b Hxe' Hb) as (br & Hbr & -> & Htb).
  destruct HE' as [HlE' HE']. destruct (lookup_lt_is_Some_2 r e) as [i Hi]; [apply lookup_lt_Some in Har; lia|]. destruct (lookup_lt_is_Some_2 r e') as [j Hj]; [apply lookup_lt_Some in Hbr; lia|].
  destruct Hlex as [_ Hlex]. rewrite (HE' _ _ Hi) in Har. rewrite (HE' _ _ Hj) in Hbr.
  assert (forall (f : arc -> nat) k ar, E !! k = Some ar -> map f E !! k = Some (f ar)) as Hmap.
  { intros f k ar' Hk. change (map f E) with (f <$> E). by rewrite list_lookup_fmap, Hk. }
  destruct (Hlex e e' i j (rank rids (x_tail ar)) (rank rids (x_head ar)) (rank rids (x_tail br)) (rank rids (x_head br))) as [?|[? [?|[? ?]]]]; try lia; try done.
  - rewrite (re_tail _ _ _ _ _ Hs). by apply (Hmap (fun a => rank rids (x_tail a))).
  - rewrite (re_tail _ _ _ _ _ Hs). by apply (Hmap (fun a => rank rids (x_tail a))).
  - rewrite (re_head _ _ _ _ _ Hs). by apply (Hmap (fun a => rank rids (x_head a))).
  - rewrite (re_head _ _ _ _ _ Hs). by apply (Hmap (fun a => rank rids (x_head a))).
Qed.
End sort.
