(** Decoding of turn restrictions (C53). *)
From Coq Require Import Ascii String.
From Verif Require Import Base OsmGraphModel OsmProfileModel OsmProfileSpec.
Ltac Zify.zify_post_hook ::= idtac.

Lemma starts_with_spec p s : starts_with p s = true <-> exists r, s = p ++ r.
Proof.
  revert s. induction p as [|a p IH]; intros s; cbn.
  - split; [by exists s|done].
  - destruct s as [|b s]; [split; [done|by intros [r ?]]|]. case_bool_decide as Hb.
    + subst b. rewrite IH. split; intros [r H]; exists r; [by rewrite H|by injection H].
    + split; [done|]. intros [r [=? ?]]. congruence.
Qed.
Lemma str_in_one s x : str_in s [x] = bool_decide (s = str x).
Proof. cbn. apply orb_false_r. Qed.

Lemma category_spec value b rest : restriction_category value = Some (b, rest) <-> value = (if b : bool then str "only_" else str "no_") ++ rest.
Proof.
  unfold restriction_category. destruct (starts_with (str "only_") value) eqn:E1.
  - apply starts_with_spec in E1 as [r ->]. split.
    + intros [= <- <-]. done.
    + destruct b; intros H; [|done]. apply app_inv_head in H as ->. done.
  - destruct (starts_with (str "no_") value) eqn:E2.
    + apply starts_with_spec in E2 as [r ->]. split.
      * intros [= <- <-]. done.
      * destruct b; intros H; [done|]. apply app_inv_head in H as ->. done.
    + split; [done|]. intros ->. destruct b.
      * assert (starts_with (str "only_") (str "only_" ++ rest) = true) as H by (apply starts_with_spec; by exists rest). congruence.
      * assert (starts_with (str "no_") (str "no_" ++ rest) = true) as H by (apply starts_with_spec; by exists rest). congruence.
Qed.
Lemma direction_spec s d : restriction_direction s = Some d <-> s = bytes (direction_name d).
Proof.
  unfold restriction_direction. rewrite !str_in_one. split.
  - repeat case_bool_decide; intros [= <-]; done.
  - intros ->. destruct d; done.
Qed.

(** Positions of members. *)
Definition at_ (ms : list member) (l : list nat) (M : list member) : Prop := Forall2 (fun i m => ms !! i = Some m) l M.

Lemma collect_spec ms : exists s, collect_members ms = Some s /\
  match s with
  | None => 2 <= length (filter (fun m => m_role m = str "via") ms)
  | Some (v, from, to) => at_ ms (option_list v) (filter (fun m => m_role m = str "via") ms) /\ at_ ms from (filter (fun m => m_role m = str "from") ms) /\ at_ ms to (filter (fun m => m_role m = str "to") ms)
  end.
Proof.
  unfold collect_members. match goal with |- context [for_range 0 (length ms) ?body ?init] =>
    destruct (for_range_inv (fun i s => match s with
      | None => 2 <= length (filter (fun m => m_role m = str "via") (take i ms))
      | Some (v, from, to) => at_ ms (option_list v) (filter (fun m => m_role m = str "via") (take i ms)) /\ at_ ms from (filter (fun m => m_role m = str "from") (take i ms)) /\ at_ ms to (filter (fun m => m_role m = str "to") (take i ms))
      end) body 0 (length ms) init) as (s & -> & Hs) end.
  - lia.
  - cbn. split_and!; constructor.
  - intros i s [_ Hi] Hs. destruct (lookup_lt_is_Some_2 ms i Hi) as [m Hm]. rewrite (take_S_r ms i m Hm). rewrite !filter_app. rewrite !filter_cons, !filter_nil.
    destruct s as [[[v from] to]|].
    2:{ eexists. split; [done|]. cbv beta iota. rewrite app_length. cbv beta iota in Hs. apply Nat.le_trans with (1 := Hs). apply Nat.le_add_r. }
    rewrite Hm, bind_S, !str_in_one. destruct Hs as (Hv & Hf & Ht).
    assert (forall l M, at_ ms l M -> at_ ms (l ++ [i]) (M ++ [m])) as Hsnoc. { intros l M H. apply Forall2_app; [done|]. by repeat constructor. }
    destruct (decide (m_role m = str "via")) as [Hr|Hr].
    { rewrite bool_decide_eq_true_2 by done. rewrite !(decide_False (P := m_role m = _)) by (rewrite Hr; done). rewrite !app_nil_r. destruct v as [v|].
      - eexists. split; [done|]. cbn. rewrite app_length. apply Forall2_length in Hv. cbn in *. lia.
      - eexists. split; [done|]. cbn. split; [|done]. apply (Hsnoc [] _ Hv). }
    rewrite bool_decide_eq_false_2 by done. destruct (decide (m_role m = str "from")) as [Hr'|Hr'].
    { rewrite bool_decide_eq_true_2 by done. rewrite !(decide_False (P := m_role m = _)) by (rewrite Hr'; done). rewrite !app_nil_r. eexists. split; [done|]. cbn. split_and!; [done|by apply Hsnoc|done]. }
    rewrite (bool_decide_eq_false_2 (m_role m = str "from")) by done. destruct (decide (m_role m = str "to")) as [Hr''|Hr''].
    { rewrite bool_decide_eq_true_2 by done. rewrite !app_nil_r. eexists. split; [done|]. cbn. split_and!; [done|done|by apply Hsnoc]. }
    rewrite (bool_decide_eq_false_2 (m_role m = str "to")) by done. rewrite !app_nil_r. eexists. split; [done|]. done.
  - exists s. split; [done|]. by rewrite firstn_all in Hs.
Qed.

Definition is_way (m : member) : bool := match m_type m with TWay => true | _ => false end.
Lemma only_ways_spec ms l M : at_ ms l M -> exists l', only_ways ms l = Some l' /\ at_ ms l' (filter is_way M).
Proof.
  unfold only_ways. intros H. assert (forall acc A, at_ ms acc A -> exists l', for_each l (fun i l => m ← ms !! i; Some (match m_type m with TWay => (l ++ [i])%list | _ => l end)) acc = Some l' /\ at_ ms l' (A ++ filter is_way M)) as Hgen.
  2:{ destruct (Hgen [] [] (List.Forall2_nil _)) as (l' & E & H'). by exists l'. }
  induction H as [|i m l M Hi H IH]; intros acc A HA; [exists acc; split; [done|]; by rewrite app_nil_r|]. cbn [for_each]. rewrite Hi, bind_S, bind_S. rewrite filter_cons. destruct (m_type m) eqn:Et.
  - rewrite decide_False by (unfold is_way; rewrite Et; tauto). by apply IH.
  - rewrite decide_True by (unfold is_way; by rewrite Et). destruct (IH (acc ++ [i]) (A ++ [m])) as (l' & -> & H'); [apply Forall2_app; [done|by repeat constructor]|]. exists l'. by rewrite <- app_assoc in H'.
  - rewrite decide_False by (unfold is_way; rewrite Et; tauto). by apply IH.
Qed.

Lemma product_spec ms from F to T (f : member -> member -> restriction) : at_ ms from F -> at_ ms to T ->
  for_each from (fun i out => a ← ms !! i; for_each to (fun j out => b ← ms !! j; Some (out ++ [f a b])%list) out) [] = Some (flat_map (fun a => map (f a) T) F).
Proof.
  intros HF HT.
  assert (forall a acc, for_each to (fun j out => b ← ms !! j; Some (out ++ [f a b])%list) acc = Some (acc ++ map (f a) T)) as Hin.
  { intros a. induction HT as [|j b to T Hj HT IH]; intros acc; cbn [for_each map]; [by rewrite app_nil_r|]. rewrite Hj, bind_S, bind_S, IH. by rewrite <- app_assoc. }
  assert (forall acc, for_each from (fun i out => a ← ms !! i; for_each to (fun j out => b ← ms !! j; Some (out ++ [f a b])%list) out) acc = Some (acc ++ flat_map (fun a => map (f a) T) F)) as Hout.
  { induction HF as [|i a from F Hi HF IH]; intros acc; cbn [for_each flat_map]; [by rewrite app_nil_r|]. rewrite Hi, bind_S, Hin, bind_S, IH. by rewrite <- app_assoc. }
  apply Hout.
Qed.

Lemma via_node {B} (mv : option member) (x y : B) : (forall m, mv = Some m -> m_type m = TNode) ->
  match m_type <$> mv with Some TRelation => y | Some TWay => y | _ => x end = x.
Proof. intros H. destruct mv as [m|]; [|done]. cbn. by rewrite (H m). Qed.

Lemma decode_spec relation ms tags : Forall (fun m => (N.of_nat (m_id m) < 2 ^ 64 - 1)%N) ms ->
  exists rs, decode_osm_car_turn_restrictions relation ms tags = Some rs /\
    length rs <= length (filter (way_member (bytes "from")) ms) * length (filter (way_member (bytes "to")) ms) /\ forall r, r ∈ rs <-> describes relation ms (get tags "restriction") r.
Proof.
  intros Hid. rewrite Forall_forall in Hid. unfold decode_osm_car_turn_restrictions. destruct (get tags "restriction") as [value|]; [|exists []; split; [done|]; split; [apply Nat.le_0_l|]; intros r; split; [by intros ?%elem_of_nil|by intros [? _]]].
  assert (forall r0, (forall r, describes relation ms (Some value) r -> False) -> r0 ∈ @nil restriction <-> describes relation ms (Some value) r0) as Hnone. { intros r0 H. split; [by intros ?%elem_of_nil|]. intros Hd. by apply H in Hd. }
  destruct (restriction_category value) as [[b rest]|] eqn:Ec.
  2:{ exists []. split; [done|]. split; [apply Nat.le_0_l|]. intros r. apply Hnone. clear r. intros r ([= Hv] & _). unfold restriction_value in Hv.
      assert (restriction_category value = Some (mandatory r, bytes (direction_name (r_direction r)))) by (apply category_spec; rewrite Hv; by destruct (mandatory r)). congruence. }
  destruct (restriction_direction rest) as [d|] eqn:Ed.
  2:{ exists []. split; [done|]. split; [apply Nat.le_0_l|]. intros r. apply Hnone. clear r. intros r ([= Hv] & _). unfold restriction_value in Hv.
      assert (restriction_category value = Some (mandatory r, bytes (direction_name (r_direction r)))) as E by (apply category_spec; rewrite Hv; by destruct (mandatory r)).
      rewrite E in Ec. injection Ec as _ <-. assert (restriction_direction (bytes (direction_name (r_direction r))) = Some (r_direction r)) by (by apply direction_spec). congruence. }
  assert (forall b' d', value = restriction_value b' d' <-> b' = b /\ d' = d) as Hval.
  { apply direction_spec in Ed. subst rest. intros b' d'. split.
    - intros Hv. assert (restriction_category value = Some (b', bytes (direction_name d'))) as E by (apply category_spec; rewrite Hv; by destruct b'). rewrite E in Ec. injection Ec as -> Hd. split; [done|].
      assert (restriction_direction (bytes (direction_name d')) = Some d') as E' by (by apply direction_spec). rewrite Hd in E'. assert (restriction_direction (bytes (direction_name d)) = Some d) as E'' by (by apply direction_spec). congruence.
    - intros [-> ->]. apply category_spec in Ec. rewrite Ec. by destruct b. }
  destruct (collect_spec ms) as (s & -> & Hs). rewrite bind_S. change (str "via") with (bytes "via") in Hs.
  destruct s as [[[v from] to]|].
  2:{ exists []. split; [done|]. split; [apply Nat.le_0_l|]. intros r. apply Hnone. clear r. intros r (_ & _ & Hv & _). unfold via_of in Hv. destruct (filter _ ms) as [|? [|]]; cbn in Hs; [lia|lia|done]. }
  destruct Hs as (Hv & Hf & Ht). destruct (only_ways_spec ms from _ Hf) as (from' & Ef & Hf'). destruct (only_ways_spec ms to _ Ht) as (to' & Et & Ht').
  assert (forall x (M : list member), filter is_way (filter (fun m => m_role m = x) M) = filter (way_member x) M) as Hww.
  { intros x M. induction M as [|m M IH]; [done|]. rewrite !filter_cons. destruct (decide (m_role m = x)) as [Hx|Hx].
    - rewrite filter_cons, IH. destruct (m_type m) eqn:Em; [rewrite (decide_False (P := way_member x m)) by (intros [_ ?]; congruence); by rewrite decide_False by (unfold is_way; rewrite Em; tauto)|by rewrite !decide_True by (done || (unfold is_way; by rewrite Em))|].
      rewrite (decide_False (P := way_member x m)) by (intros [_ ?]; congruence). by rewrite decide_False by (unfold is_way; rewrite Em; tauto).
    - rewrite (decide_False (P := way_member x m)) by (intros [? _]; congruence). done. }
  rewrite Hww in Hf', Ht'. change (str "from") with (bytes "from") in Hf'. change (str "to") with (bytes "to") in Ht'.
  set (F := filter (way_member (bytes "from")) ms) in *. set (T := filter (way_member (bytes "to")) ms) in *.
  assert (exists mv, match v with None => Some None | Some i => m ← ms !! i; Some (Some m) end = Some mv /\ filter (fun m => m_role m = bytes "via") ms = option_list mv) as (mv & Emv & Hmv).
  { destruct v as [i|]; cbn in Hv |- *.
    - apply Forall2_cons_inv_l in Hv as (m & k & Hm & Hk & ->). apply Forall2_nil_inv_l in Hk as ->. exists (Some m). by rewrite Hm.
    - apply Forall2_nil_inv_l in Hv as ->. by exists None. }
  assert (forall {B} (g : member -> B), match v with None => Some None | Some i => m ← ms !! i; Some (Some (g m)) end = Some (g <$> mv)) as Hg.
  { intros B g. destruct v as [i|]; [|by injection Emv as <-]. destruct (ms !! i); [|done]. cbn in Emv |- *. by injection Emv as <-. }
  rewrite Hg, bind_S.
  assert (forall P : member -> Prop, (exists m, m ∈ ms /\ way_member (bytes "from") m /\ P m) <-> exists m, m ∈ F /\ P m) as HF.
  { intros P. unfold F. setoid_rewrite elem_of_list_filter. naive_solver. }
  assert (forall P : member -> Prop, (exists m, m ∈ ms /\ way_member (bytes "to") m /\ P m) <-> exists m, m ∈ T /\ P m) as HT.
  { intros P. unfold T. setoid_rewrite elem_of_list_filter. naive_solver. }
  assert ((exists m, mv = Some m /\ m_type m <> TNode) \/ (forall m, mv = Some m -> m_type m = TNode)) as [(m & -> & Hm)|Hnode].
  { destruct mv as [m|]; [|by right]. destruct (m_type m) eqn:Em; [right; by intros ? [= <-]|left; exists m; by rewrite Em|left; exists m; by rewrite Em]. }
  { exists []. split; [cbn; by destruct (m_type m)|]. split; [apply Nat.le_0_l|]. intros r. apply Hnone. clear r. intros r (_ & _ & Hvr & _). unfold via_of in Hvr. rewrite Hmv in Hvr. cbn in Hvr. by destruct Hvr. }
  assert (forall r, via_of ms (via r) <-> via r = m_id <$> mv) as Hvia.
  { intros r. unfold via_of. rewrite Hmv. destruct mv as [m|]; cbn; [|done]. split; [by intros [_ ->]|]. intros ->. split; [by apply Hnode|done]. }
  assert (match v with None => Some None | Some i => m ← ms !! i; Some (if decide (N.of_nat (m_id m) = 2 ^ 64 - 1)%N then None else Some (m_id m)) end = Some (m_id <$> mv)) as ->.
  { destruct v as [i|]; [|by injection Emv as <-]. destruct (ms !! i) as [m|] eqn:Em; [|done]. cbn in Emv |- *. injection Emv as <-. rewrite decide_False; [done|]. apply elem_of_list_lookup_2, Hid in Em. intros Hx. rewrite Hx in Em. by apply N.lt_irrefl in Em. }
  rewrite Ef, Et, !bind_S.
  assert (length from' = length F) as HlF by (by eapply Forall2_length). assert (length to' = length T) as HlT by (by eapply Forall2_length).
  rewrite via_node by exact Hnode.
  assert (forall r, describes relation ms (Some value) r <-> (mandatory r = b /\ r_direction r = d) /\ r_relation r = relation /\ via r = m_id <$> mv /\ (exists m, m ∈ F /\ m_id m = from_way r) /\ (exists m, m ∈ T /\ m_id m = to_way r) /\ (mandatory r = true -> length F = 1 /\ length T = 1)) as Hd.
  { intros r. unfold describes. rewrite HF, HT, Hvia. rewrite <- Hval. split; intros (H1 & H2); (split; [|done]); congruence. }
  setoid_rewrite Hd. clear Hnone.
  destruct (decide (to' = [])) as [->|Hto].
  { exists []. split; [done|]. split; [apply Nat.le_0_l|]. intros r. split; [by intros ?%elem_of_nil|]. intros (_ & _ & _ & _ & (m & Hm & _) & _). destruct T; [by apply elem_of_nil in Hm|done]. }
  destruct (decide (from' = [])) as [->|Hfrom].
  { exists []. split; [done|]. split; [apply Nat.le_0_l|]. intros r. split; [by intros ?%elem_of_nil|]. intros (_ & _ & _ & (m & Hm & _) & _). destruct F; [by apply elem_of_nil in Hm|done]. }
  destruct (decide (b = true /\ length to' <> 1)) as [[-> Hl]|Hl].
  { exists []. split; [done|]. split; [apply Nat.le_0_l|]. intros r. split; [by intros ?%elem_of_nil|]. intros ([Hb _] & _ & _ & _ & _ & H). apply H in Hb. lia. }
  destruct (decide (b = true /\ length from' <> 1)) as [[-> Hl']|Hl'].
  { exists []. split; [done|]. split; [apply Nat.le_0_l|]. intros r. split; [by intros ?%elem_of_nil|]. intros ([Hb _] & _ & _ & _ & _ & H). apply H in Hb. lia. }
  eexists. split; [by apply (product_spec ms from' F to' T (fun a b0 => mkRestr relation b d (m_id a) (m_id <$> mv) (m_id b0)))|]. split.
  { clear. induction F as [|a F IH]; cbn; [lia|]. rewrite app_length, map_length. lia. }
  intros r. rewrite elem_of_list_In, in_flat_map. split.
  - intros (a & Ha & Hr). apply in_map_iff in Hr as (c & <- & Hc). cbn. apply elem_of_list_In in Ha, Hc. split_and!; try done; [by exists a|by exists c|]. intros ->. split; [destruct (decide (length from' = 1)) as [?|Hx]; [lia|exfalso; by apply Hl']|destruct (decide (length to' = 1)) as [?|Hx]; [lia|exfalso; by apply Hl]].
  - intros ([Hb Hdir] & Hrel & Hv' & (a & Ha & Hfw) & (c & Hc & Htw) & _). exists a. split; [by apply elem_of_list_In|]. apply in_map_iff. exists c. split; [|by apply elem_of_list_In]. destruct r. cbn in *. congruence.
Qed.
