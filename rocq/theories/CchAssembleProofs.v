(** The last stages of the CCH constructor: downward graph and input arcs. *)
From Verif Require Import Base UtilSpec GraphSpec PathSpec WalkSpec PermutationModel SortModel GraphUtilModel
  PermutationProofs SortProofs GraphUtilProofs CchModel CchSpec CchCustomizeProofs CchTriangleProofs CchBuildModel CchChordalProofs CchBuildProofs.
Ltac Zify.zify_post_hook ::= idtac.

Lemma build_down_spec asserts n ut uh :
  uparcs n ut uh ->
  exists dfo dh d2u, build_down asserts n ut uh = Some (dfo, dh, d2u) /\ csr n dfo dh /\
    (forall y b z, out_arc dfo y b -> dh !! b = Some z -> exists a, d2u !! b = Some a /\ ut !! a = Some z /\ uh !! a = Some y) /\
    (forall a z y, ut !! a = Some z -> uh !! a = Some y -> exists b, out_arc dfo y b /\ dh !! b = Some z /\ d2u !! b = Some a) /\
    (forall y b b' z z', out_arc dfo y b -> out_arc dfo y b' -> b < b' -> dh !! b = Some z -> dh !! b' = Some z' -> z < z').
Proof.
  intros HU. pose proof (ua_len _ _ _ HU) as Hl. pose proof (ua_lex _ _ _ HU) as Hlex. destruct (uparcs_elem _ _ _ HU) as [Hut Huh].
  unfold build_down. destruct (sort_direct asserts n uh ut) as (r & dt & Hs & Hr & Hrl & Hpa & Hv & Hle); [lia|done|done|].
  rewrite Hs. bs. cbv iota. destruct (Hv ut) as (dh & Hdh & Hpb); [lia|]. rewrite Hdh. bs. specialize (Hle _ Hpb).
  assert (length dt = length dh) as Hld by (rewrite (proj1 Hpa), (proj1 Hpb); done).
  destruct (index_spec n dt dh Hld) as (dfo & Hf & Hc & Ho).
  { by eapply lexle_sorted. } { intros x ?. by eapply Huh, permuted_elem. } { intros x ?. by eapply Hut, permuted_elem. }
  rewrite Hf. bs. exists dfo, dh, r. split; [done|]. split; [done|]. split; [|split].
  - intros y b z Hy Hz. apply Ho in Hy. destruct (permuted_lookup _ _ _ _ _ Hpa Hy) as (a & Ha & Hya). exists a. split; [done|].
    split; [|done]. by rewrite <- (proj2 Hpb _ _ Ha).
  - intros a z y Hz Hy. destruct (perm_surj r a Hr) as [b Hb]; [apply lookup_lt_Some in Hz; lia|]. exists b.
    rewrite Ho. rewrite (proj2 Hpa _ _ Hb), (proj2 Hpb _ _ Hb). done.
  - intros y b b' z z' Hb Hb' Hlt Hz Hz'. apply Ho in Hb, Hb'. destruct (Hle _ _ _ _ _ _ Hlt Hb Hz Hb' Hz') as [?|[_ ?]]; [lia|].
    destruct (decide (z = z')) as [<-|]; [|lia]. exfalso.
    assert (distinct dt dh) as Hd.
    { eapply perm_distinct; [done|exact Hpa|exact Hpb|]. intros i j t h Hi Hi' Hj Hj'. eapply (lexlt_distinct _ _ Hlex); eauto. }
    specialize (Hd _ _ _ _ Hb Hz Hb' Hz'). lia.
Qed.

Lemma set_mapped_spec count (mp : list (option nat)) :
  (forall a, Some a ∈ mp -> a < count) ->
  exists has, set_mapped count mp = Some has /\ length has = count /\ forall a, has !! a = Some true <-> Some a ∈ mp.
Proof.
  intros Hb. unfold set_mapped.
  destruct (for_each_inv (fun pre bits => length bits = count /\ forall a, bits !! a = Some true <-> Some a ∈ pre)
     (fun o bits => match o with None => Some bits | Some a => wr bits a true end) mp (replicate count false)) as (has & He & Hl & H).
  - split; [apply replicate_length|]. intros a. split; [|by intros ?%elem_of_nil]. intros [? _]%lookup_replicate. done.
  - intros pre o post bits -> [Hl H]. destruct o as [a|].
    + assert (a < count). { apply Hb. rewrite !elem_of_app, elem_of_cons. auto. }
      rewrite wr_Some by lia. eexists. split; [done|]. rewrite insert_length. split; [done|]. intros x.
      rewrite elem_of_app, elem_of_list_singleton. destruct (decide (x = a)) as [->|Hne].
      * rewrite list_lookup_insert by lia. naive_solver.
      * rewrite list_lookup_insert_ne by done. rewrite H. naive_solver.
    + eexists. split; [done|]. split; [done|]. intros x. rewrite elem_of_app, elem_of_list_singleton, H. naive_solver.
  - by exists has.
Qed.

(** Input arc [e] belongs to CCH arc [a] in direction [d]. *)
Definition used (mp : list (option nat)) (up : list bool) (d : bool) (a e : nat) : Prop := mp !! e = Some (Some a) /\ up !! e = Some d.
Definition cell (d : bool) (s : inputs) := if d then i_fwd s else i_bwd s.
Definition xs_of (d : bool) (s : inputs) := if d then i_xf s else i_xb s.
Definition es_of (d : bool) (s : inputs) := if d then i_ef s else i_eb s.
(** The state before input arc [e]. *)
Record recorded (has : list bool) (mp : list (option nat)) (up : list bool) (count k e : nat) (s : inputs) : Prop := {
  re_len : forall d, length (cell d s) = k;
  re_extra : length (i_extra s) = count;
  re_same : forall d, length (xs_of d s) = length (es_of d s);
  re_cell : forall d a i, local_id has a = Some i -> exists o, cell d s !! i = Some o /\
    (o = None -> forall e', ~ has_arc (xs_of d s) (es_of d s) a e') /\
    forall e', o = Some e' \/ has_arc (xs_of d s) (es_of d s) a e' <-> e' < e /\ used mp up d a e';
  re_set : forall d a e', has_arc (xs_of d s) (es_of d s) a e' -> i_extra s !! a = Some true }.

Lemma has_arc_snoc xs es x y a e : length xs = length es -> has_arc (xs ++ [x]) (es ++ [y]) a e <-> has_arc xs es a e \/ (a = x /\ e = y).
Proof.
  intros Hl. split.
  - intros (i & Hi & Hi'). apply lookup_app_Some in Hi as [Hi|[Hge Hi]].
    + left. exists i. rewrite lookup_app_l in Hi' by (apply lookup_lt_Some in Hi; lia). done.
    + right. rewrite lookup_app_r in Hi' by lia. rewrite Hl in Hi. destruct (i - length es) as [|[]]; cbn in *; naive_solver.
  - intros [(i & Hi & Hi')|[-> ->]].
    + exists i. rewrite !lookup_app_l by (eapply lookup_lt_Some; eassumption). done.
    + exists (length xs). rewrite !lookup_app_r by lia. rewrite Hl, Nat.sub_diag. done.
Qed.

(** [record_input] changes one direction only. *)
Lemma record_input_dir has mp up e a d i s o :
  mp !! e = Some (Some a) -> up !! e = Some d -> local_id has a = Some i -> cell d s !! i = Some o -> a < length (i_extra s) ->
  exists s', record_input has mp up e s = Some s' /\
    cell (negb d) s' = cell (negb d) s /\ xs_of (negb d) s' = xs_of (negb d) s /\ es_of (negb d) s' = es_of (negb d) s /\
    match o with
    | None => cell d s' = <[i := Some e]> (cell d s) /\ xs_of d s' = xs_of d s /\ es_of d s' = es_of d s /\ i_extra s' = i_extra s
    | Some _ => cell d s' = cell d s /\ xs_of d s' = xs_of d s ++ [a] /\ es_of d s' = es_of d s ++ [e] /\ i_extra s' = <[a := true]> (i_extra s)
    end.
Proof.
  intros Hm Hu Hi Ho Ha. unfold record_input. rewrite Hm. bs. cbv iota. rewrite Hi. bs. rewrite Hu. bs.
  assert (i < length (cell d s)) as Hil by (by eapply lookup_lt_Some).
  destruct d; cbn [cell] in *; rewrite Ho; bs; destruct o as [e0|]; (rewrite wr_Some by lia); bs; eexists; (split; [done|]); done.
Qed.

Lemma record_step has mp up count k e s :
  (forall a, has !! a = Some true <-> Some a ∈ mp) -> length up = length mp -> (forall a, Some a ∈ mp -> a < count) ->
  e < length mp -> recorded has mp up count k e s -> exists s', record_input has mp up e s = Some s' /\ recorded has mp up count k (S e) s'.
Proof.
  intros Hhas Hlu Hc He [Hlen Hx Hsame Hcell Hset].
  destruct (lookup_lt_is_Some_2 mp e He) as [[a|] Hm].
  2: { exists s. unfold record_input. rewrite Hm. bs. split; [done|]. split; try done.
    intros d a i Hi. destruct (Hcell d a i Hi) as (o & Ho & Hn & Hiff). exists o. split; [done|]. split; [done|]. intros e'. rewrite Hiff.
    split; intros [? [? ?]]; (split; [|done]); [lia|]. destruct (decide (e' = e)) as [->|]; [congruence|lia]. }
  assert (Some a ∈ mp) as Hin by (by eapply elem_of_list_lookup_2).
  destruct (lookup_lt_is_Some_2 up e) as [d Hu]; [lia|].
  destruct (local_id_lt has a) as (i & Hi & _); [by apply Hhas|].
  destruct (Hcell d a i Hi) as (o & Ho & Hn & Hiff).
  destruct (record_input_dir has mp up e a d i s o) as (s' & Hs & Hc' & Hx' & He' & Hd); [done..| |].
  { rewrite Hx. by apply Hc. }
  exists s'. split; [done|].
  assert (forall d', d' <> d -> cell d' s' = cell d' s /\ xs_of d' s' = xs_of d' s /\ es_of d' s' = es_of d' s) as Hoth.
  { intros d' Hd'. replace d' with (negb d) by (destruct d, d'; done). done. }
  assert (i < length (cell d s)) as Hil by (by eapply lookup_lt_Some).
  assert (forall d' a' e', used mp up d' a' e' -> e' < S e <-> e' < e \/ (e' = e /\ d' = d /\ a' = a)) as Hlast.
  { intros d' a' e' [H1 H2]. split; [|lia]. intros ?. destruct (decide (e' = e)) as [->|]; [right|left; lia]. naive_solver. }
  split.
  - intros d'. destruct (decide (d' = d)) as [->|Hne]; [|by rewrite (proj1 (Hoth _ Hne))].
    destruct o; destruct Hd as (-> & _); rewrite ?insert_length; done.
  - destruct o; destruct Hd as (_ & _ & _ & ->); rewrite ?insert_length; done.
  - intros d'. destruct (decide (d' = d)) as [->|Hne].
    + destruct o; destruct Hd as (_ & -> & -> & _); rewrite ?app_length; cbn; by rewrite Hsame.
    + destruct (Hoth _ Hne) as (_ & -> & ->). done.
  - intros d' a' i' Hi'. destruct (decide (d' = d)) as [->|Hne].
    2: { destruct (Hoth _ Hne) as (-> & -> & ->). destruct (Hcell d' a' i' Hi') as (o' & Ho' & Hn' & Hiff'). exists o'. split; [done|]. split; [done|].
      intros e'. rewrite Hiff'. split; intros [H1 H2]; (split; [|done]); apply (Hlast _ _ _ H2) || apply (Hlast _ _ _ H2) in H1; naive_solver. }
    destruct (decide (a' = a)) as [->|Hna].
    + assert (i' = i) as -> by congruence. destruct o as [e0|]; destruct Hd as (-> & -> & -> & _).
      * exists (Some e0). split; [done|]. split; [done|]. intros e'. rewrite has_arc_snoc by done. specialize (Hiff e'). split.
        -- intros [H|[H| [_ ->]]]; [| |by split; [lia|]]; (destruct (proj1 Hiff) as [? ?]; [by auto|split; [lia|done]]).
        -- intros [H1 H2]. apply (Hlast _ _ _ H2) in H1 as [H1|(-> & _)]; [|by right; right].
           destruct (proj2 Hiff) as [?|?]; [by split|by left|by right; left].
      * rewrite list_lookup_insert by done. exists (Some e). split; [done|]. split; [done|]. intros e'. specialize (Hiff e'). split.
        -- intros [[= ->]|H]; [by split; [lia|]|]. destruct (proj1 Hiff) as [? ?]; [by auto|]. split; [lia|done].
        -- intros [H1 H2]. apply (Hlast _ _ _ H2) in H1 as [H1|(-> & _)]; [|by left].
           destruct (proj2 Hiff) as [?|?]; [by split|done|by right].
    + destruct (Hcell d a' i' Hi') as (o' & Ho' & Hn' & Hiff'). exists o'.
      assert (i' <> i) as Hii. { intros ->. apply Hna. by eapply local_id_inj. }
      assert (forall e', has_arc (xs_of d s') (es_of d s') a' e' <-> has_arc (xs_of d s) (es_of d s) a' e') as Hsm.
      { intros e'. destruct o; destruct Hd as (_ & -> & -> & _); [|done]. rewrite has_arc_snoc by done. naive_solver. }
      split; [destruct o; destruct Hd as (-> & _); [done|by rewrite list_lookup_insert_ne]|]. split; [intros H e' H'%Hsm; by eapply Hn'|].
      intros e'. rewrite Hsm, Hiff'. split; intros [H1 H2]; (split; [|done]); [lia|]. apply (Hlast _ _ _ H2) in H1. naive_solver.
  - intros d' a' e' H.
    assert (has_arc (xs_of d' s) (es_of d' s) a' e' \/ (a' = a /\ exists e0, o = Some e0)) as [Hold|[-> [e0 ->]]].
    { destruct (decide (d' = d)) as [->|Hne].
      - destruct o as [e0|]; destruct Hd as (_ & Hdx & Hde & _); rewrite Hdx, Hde in H; [|by left].
        apply has_arc_snoc in H as [?|[-> ->]]; [by left|right|done]. split; [done|]. by exists e0.
      - destruct (Hoth _ Hne) as (_ & Hdx & Hde). rewrite Hdx, Hde in H. by left. }
    + specialize (Hset _ _ _ Hold). destruct o; destruct Hd as (_ & _ & _ & ->); [|done].
      destruct (decide (a' = a)) as [->|]; [rewrite list_lookup_insert; [done|by eapply lookup_lt_Some]|by rewrite list_lookup_insert_ne].
    + destruct Hd as (_ & _ & _ & ->). rewrite list_lookup_insert; [done|]. rewrite Hx. by apply Hc.
Qed.

Lemma group_extra_spec extra xs es :
  length xs = length es -> (forall a e, has_arc xs es a e -> extra !! a = Some true) ->
  exists first es', group_extra extra xs es = Some (first, es') /\
    forall a j, local_id extra a = Some j -> exists lo hi l, first !! j = Some lo /\ first !! S j = Some hi /\
      mapM (fun k => es' !! k) (seq lo (hi - lo)) = Some l /\ forall e, e ∈ l <-> has_arc xs es a e.
Proof.
  intros Hl Hset. unfold group_extra. set (count := length (filter Is_true extra)).
  assert (forall i a, xs !! i = Some a -> exists j, local_id extra a = Some j /\ j < count) as Hloc.
  { intros i a Hi. apply local_id_lt. destruct (lookup_lt_is_Some_2 es i) as [e He]; [apply lookup_lt_Some in Hi; lia|]. apply (Hset a e). by exists i. }
  destruct (mapM_is_Some_2 (local_id extra) xs) as [ks Hks].
  { apply Forall_forall. intros a [i Hi]%elem_of_list_lookup_1. destruct (Hloc _ _ Hi) as (j & Hj & _). by exists j. }
  rewrite Hks. bs. apply mapM_Some in Hks. pose proof (Forall2_length _ _ _ Hks) as Hkl.
  assert (forall x, x ∈ ks -> x < count) as Hkb.
  { intros x [i Hi]%elem_of_list_lookup_1. destruct (Forall2_lookup_r _ _ _ _ _ Hks Hi) as (a & Ha & Hax).
    destruct (Hloc _ _ Ha) as (j & Hj & ?). by simplify_eq. }
  destruct (compute_inverse_stable_sort_permutation_correct (fun x => x) ks count Hkb) as (q & p & Hq & Hinv & Hqp & Hst).
  rewrite Hq. bs. assert (perm p) as Hpp by (eapply inverse_of_perm; [exact Hqp|by apply inverse_of_sym]).
  assert (length p = length ks) as Hpl. { destruct Hst as [Hst _]. rewrite Hst. apply seq_length. }
  assert (length q = length ks) as Hql. { rewrite (proj1 Hinv). done. }
  destruct (apply_inverse_permutation_correct q ks Hqp Hql) as (ks2 & Hk2 & Hk2l & Hkp). rewrite Hk2. bs.
  apply (inverse_permuted p q) in Hkp; [|done..].
  destruct (index_spec count ks2 ks2) as (first & Hf & Hc & Ho).
  { done. }
  { apply sorted_pairwise. intros i j x y Hij Hx Hy.
    destruct (permuted_lookup _ _ _ _ _ Hkp Hx) as (a & Ha & Hxa), (permuted_lookup _ _ _ _ _ Hkp Hy) as (b & Hb & Hyb).
    destruct (proj2 Hst i j a b x y Hij Ha Hb Hxa Hyb) as [?|[? _]]; lia. }
  { intros x ?. by eapply Hkb, permuted_elem. } { intros x ?. by eapply Hkb, permuted_elem. }
  rewrite Hf. bs. destruct (apply_inverse_permutation_correct q es Hqp) as (es2 & He2 & He2l & Hep); [lia|]. rewrite He2. bs.
  apply (inverse_permuted p q) in Hep; [|done|done|lia].
  eexists _, _. split; [done|]. intros a j Hj.
  assert (j < count) as Hjc. { destruct (local_id_lt extra a) as (j' & ? & ?); [by eapply local_id_set|]. by simplify_eq. }
  destruct (csr_range _ _ _ _ Hc Hjc) as (lo & hi & Hlo & Hhi & Hlohi & Hhik). exists lo, hi.
  destruct (mapM_is_Some_2 (fun k => es2 !! k) (seq lo (hi - lo))) as [l Hml].
  { apply Forall_forall. intros k Hk%elem_of_seq. apply lookup_lt_is_Some_2. lia. }
  exists l. split; [done|]. split; [done|]. split; [done|]. apply mapM_Some in Hml.
  intros e. split.
  - intros [i Hi]%elem_of_list_lookup_1. destruct (Forall2_lookup_r _ _ _ _ _ Hml Hi) as (k & Hk & Hke).
    apply lookup_seq in Hk as [-> Hlt].
    assert (ks2 !! (lo + i) = Some j) as Hkj. { apply Ho. exists lo, hi. split; [done|]. split; [done|]. lia. }
    destruct (permuted_lookup _ _ _ _ _ Hkp Hkj) as (x & Hx & Hxj). exists x. split.
    + destruct (Forall2_lookup_r _ _ _ _ _ Hks Hxj) as (a' & Ha' & Hloc'). rewrite Ha'. f_equal. by eapply local_id_inj.
    + by rewrite <- (proj2 Hep _ _ Hx).
  - intros (x & Hxa & Hxe). destruct (Forall2_lookup_l _ _ _ _ _ Hks Hxa) as (j' & Hj' & Hloc'). assert (j' = j) as -> by congruence.
    destruct (perm_surj p x Hpp) as [k Hk]; [apply lookup_lt_Some in Hj'; lia|].
    assert (ks2 !! k = Some j) as Hkj by (by rewrite (proj2 Hkp _ _ Hk)).
    apply Ho in Hkj as (lo' & hi' & ? & ? & Hkr). simplify_eq.
    destruct (Forall2_lookup_l _ _ _ (k - lo) k Hml) as (e' & He' & Hke).
    { apply lookup_seq. lia. }
    rewrite (proj2 Hep _ _ Hk) in Hke. apply elem_of_list_lookup. exists (k - lo). congruence.
Qed.

Lemma assemble_spec asserts order rank parent fo ut uh mp up n rt rh :
  length order = n -> length rank = n -> uparcs n ut uh -> csr n fo uh -> (forall x j, out_arc fo x j <-> ut !! j = Some x) ->
  length rt = length rh -> (forall x, x ∈ rt -> x < n) -> (forall x, x ∈ rh -> x < n) ->
  mapped rt rh ut uh mp up ->
  (forall u v L k, u <> v -> gw (skel rt rh) (below u v) u v L k -> has_arc ut uh (u `min` v) (u `max` v)) ->
  length parent = n -> (forall x p, parent !! x = Some (Some p) -> x < p < n) -> (forall u v, has_arc ut uh u v -> ancestor parent u v) ->
  exists c, assemble asserts order rank parent fo ut uh mp up = Some c /\ wf_cch n rt rh c /\
    c_order c = order /\ c_rank c = rank /\ c_parent c = parent /\ up_first_out c = fo /\ up_head c = uh /\ up_tail c = ut /\
    in_to_cch c = mp /\ in_upward c = up.
Proof.
  intros Hon Hrn HU Hcsr Hout Hl Ht Hh HM Hcomp Hpl Hpr Hanc.
  pose proof (ua_len _ _ _ HU) as Hlu. pose proof (ua_lex _ _ _ HU) as Hlex. pose proof (ua_range _ _ _ HU) as Hrange.
  unfold assemble. rewrite Hon.
  destruct (build_down_spec asserts n ut uh HU) as (dfo & dh & d2u & Hd & Hdc & Hdu & Hud & Hds). rewrite Hd. bs. cbv iota.
  (* the inputs of an arc *)
  assert (forall e a, mp !! e = Some (Some a) -> exists u v, rt !! e = Some u /\ rh !! e = Some v /\ u <> v /\
     ut !! a = Some (u `min` v) /\ uh !! a = Some (u `max` v) /\ up !! e = Some (bool_decide (u < v))) as Hmp.
  { intros e a He. assert (e < length rt) as Hlt by (apply lookup_lt_Some in He; rewrite (ma_mp _ _ _ _ _ _ HM) in He; done).
    destruct (lookup_lt_is_Some_2 rt e) as [u Hu]; [done|]. destruct (lookup_lt_is_Some_2 rh e) as [v Hv]; [lia|]. exists u, v.
    split; [done|]. split; [done|]. destruct (decide (u = v)) as [<-|Hne].
    { pose proof (ma_loop _ _ _ _ _ _ HM _ _ Hu Hv). congruence. }
    destruct (ma_arc _ _ _ _ _ _ HM _ _ _ Hu Hv Hne) as (a' & Ha & Ha1 & Ha2). assert (a' = a) as -> by congruence.
    split; [done|]. split; [done|]. split; [done|]. by eapply ma_dir. }
  assert (forall d a u v e, ut !! a = Some u -> uh !! a = Some v -> used mp up d a e <-> dir_arc rt rh d u v e) as Hused.
  { intros d a u v e Hu Hv. destruct (Hrange u v) as [Huv _]; [by exists a|]. split.
    - intros [Hm Hup]. destruct (Hmp e a Hm) as (x & y & Hx & Hy & Hne & H1 & H2 & H3). rewrite Hu in H1. rewrite Hv in H2. rewrite Hup in H3.
      simplify_eq. unfold dir_arc. destruct (le_lt_dec x y).
      + rewrite Nat.min_l, Nat.max_r by lia. rewrite bool_decide_true by lia. done.
      + rewrite Nat.min_r, Nat.max_l by lia. rewrite bool_decide_false by lia. done.
    - unfold dir_arc. intros H. destruct d; destruct H as [H1 H2].
      + destruct (ma_arc _ _ _ _ _ _ HM e u v) as (a' & Ha & Ha1 & Ha2); [done|done|lia|]. rewrite Nat.min_l in Ha1 by lia. rewrite Nat.max_r in Ha2 by lia.
        assert (a' = a) as -> by (by eapply (lexlt_distinct _ _ Hlex)). split; [done|]. rewrite (ma_dir _ _ _ _ _ _ HM e u v) by done. by rewrite bool_decide_true.
      + destruct (ma_arc _ _ _ _ _ _ HM e v u) as (a' & Ha & Ha1 & Ha2); [done|done|lia|]. rewrite Nat.min_r in Ha1 by lia. rewrite Nat.max_l in Ha2 by lia.
        assert (a' = a) as -> by (by eapply (lexlt_distinct _ _ Hlex)). split; [done|]. rewrite (ma_dir _ _ _ _ _ _ HM e v u) by done. rewrite bool_decide_false by lia. done. }
  assert (forall a, Some a ∈ mp -> a < length uh) as Hcnt.
  { intros a [e He]%elem_of_list_lookup_1. destruct (Hmp e a He) as (u & v & _ & _ & _ & _ & H & _). by eapply lookup_lt_Some. }
  destruct (set_mapped_spec (length uh) mp Hcnt) as (has & Hhe & Hhl & Hhas). rewrite Hhe. bs.
  set (k := length (filter Is_true has)).
  destruct (for_range_inv (recorded has mp up (length uh) k) (record_input has mp up) 0 (length mp)
     (mkInputs (replicate k None) (replicate k None) (replicate (length uh) false) [] [] [] [])) as (s & Hs & [Hlen Hxl Hsame Hcell Hset]).
  - lia.
  - split.
    + intros []; cbn; apply replicate_length.
    + cbn. apply replicate_length.
    + by intros [].
    + intros d a i Hi. destruct (local_id_lt has a) as (i' & ? & Hik); [by eapply local_id_set|]. assert (i' = i) as -> by congruence.
      exists None. split; [destruct d; cbn; by rewrite lookup_replicate_2|]. assert (forall e', ~ has_arc (xs_of d (mkInputs (replicate k None) (replicate k None) (replicate (length uh) false) [] [] [] [])) (es_of d (mkInputs (replicate k None) (replicate k None) (replicate (length uh) false) [] [] [] [])) a e') as Hno.
      { intros e' (x & Hx & _). destruct d; cbn in Hx; by rewrite lookup_nil in Hx. }
      split; [intros _; exact Hno|]. intros e'. split; [intros [?|HX]; [done|by apply Hno in HX]|lia].
    + intros d a e' (x & Hx & _). destruct d; cbn in Hx; by rewrite lookup_nil in Hx.
  - intros e s He HR. eapply record_step; try done; [|lia]. rewrite (ma_up _ _ _ _ _ _ HM), (ma_mp _ _ _ _ _ _ HM). done.
  - rewrite Hs. bs.
    destruct (group_extra_spec (i_extra s) (i_xf s) (i_ef s)) as (ff & ef & Hgf & Hf); [apply (Hsame true)|apply (Hset true)|]. rewrite Hgf. bs. cbv iota.
    destruct (group_extra_spec (i_extra s) (i_xb s) (i_eb s)) as (fb & eb & Hgb & Hb); [apply (Hsame false)|apply (Hset false)|]. rewrite Hgb. bs. cbv iota.
    eexists. split; [done|]. split; [|done].
    assert (forall (d : bool) a j, local_id (i_extra s) a = Some j -> exists lo hi l, (if d then ff else fb) !! j = Some lo /\ (if d then ff else fb) !! S j = Some hi /\
       mapM (fun k => (if d then ef else eb) !! k) (seq lo (hi - lo)) = Some l /\ forall e, e ∈ l <-> has_arc (xs_of d s) (es_of d s) a e) as Hg.
    { intros []; [exact Hf|exact Hb]. }
    clear Hf Hb Hgf Hgb Hs.
    split; cbn; try done.
    + split; [done|]. intros x a. apply Hout.
    + intros a u v Ha. apply (Hrange u v). by exists a.
    + intros a b u x y [Ha1 Ha2] [Hb1 Hb2] Hab. cbn in *. destruct (Hlex _ _ _ _ _ _ Hab Ha1 Ha2 Hb1 Hb2) as [?|[_ ?]]; lia.
    + intros a z y [? ?]. by apply Hud.
    + split; [done|]. split; intros e u Hu; [eapply Ht|eapply Hh]; by eapply elem_of_list_lookup_2.
    + by eapply ma_mp.
    + intros e u v Hu Hv Hne. destruct (ma_arc _ _ _ _ _ _ HM _ _ _ Hu Hv Hne) as (a & ? & ? & ?). by exists a.
    + intros e u Hu Hv. by eapply ma_loop.
    + intros d a u v [Hau Hav]. cbn in Hau, Hav. unfold arc_inputs. cbn.
      destruct (lookup_lt_is_Some_2 has a) as [b Hb]; [apply lookup_lt_Some in Hav; lia|]. rewrite Hb. bs. destruct b; cbn [negb].
      2: { exists None, []. split; [done|]. split; [done|]. intros e. split; [intros [?|?%elem_of_nil]; done|].
        intros He. apply (Hused d a u v e Hau Hav) in He as [He _]. apply elem_of_list_lookup_2 in He. apply Hhas in He. congruence. }
      destruct (local_id_lt has a Hb) as (i & Hi & _). rewrite Hi. bs.
      destruct (Hcell d a i Hi) as (o & Ho & Hno & Hiff). change (if d then i_fwd s else i_bwd s) with (cell d s). rewrite Ho. bs.
      assert (forall e, o = Some e \/ has_arc (xs_of d s) (es_of d s) a e <-> dir_arc rt rh d u v e) as Hall.
      { intros e. rewrite Hiff. rewrite <- (Hused d a u v e Hau Hav). split; [by intros [_ ?]|]. intros Hx. split; [|done]. by eapply lookup_lt_Some, Hx. }
      destruct (lookup_lt_is_Some_2 (i_extra s) a) as [b Hxb]; [apply lookup_lt_Some in Hav; lia|]. rewrite Hxb. bs. destruct b; cbn [negb].
      2: { assert (forall e, ~ has_arc (xs_of d s) (es_of d s) a e) as Hnone by (intros e Hx%Hset; congruence).
        exists o, []. split; [done|]. split; [done|]. intros e. rewrite <- Hall. split; (intros [?|Hx]; [by left|]); [by apply elem_of_nil in Hx|by apply Hnone in Hx]. }
      destruct (local_id_lt (i_extra s) a Hxb) as (j & Hj & _). rewrite Hj. bs.
      destruct (Hg d a j Hj) as (lo & hi & l & H1 & H2 & H3 & H4). rewrite H1. bs. rewrite H2. bs. rewrite H3. bs.
      exists o, l. split; [done|]. split.
      * intros Hoe. destruct l as [|e l]; [done|]. exfalso. eapply Hno; [done|]. apply (H4 e). by left.
      * intros e. rewrite H4. apply Hall.
    + intros a u v [? ?]. apply Hanc. by exists a.
Qed.
