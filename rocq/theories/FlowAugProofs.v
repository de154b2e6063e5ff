(** augment_all_non_blocked_path (src/nested_dissection.cpp:159-210): every path that is found adds one unit of flow, and there is at least one. *)
From Verif Require Import Base UtilSpec GraphSpec FlowModel FlowSpec FlowArray FlowNetProofs FlowBfsProofs.

Ltac Zify.zify_post_hook ::= idtac.

(** The number of arcs that are not blocked. *)
Definition unblocked (m : nat) (blocked : list bool) : nat := length (filter (fun a => node_in blocked a = false) (seq 0 m)).

Lemma unblocked_le m (blocked : list bool) : unblocked m blocked <= m.
Proof. unfold unblocked. etransitivity; [apply filter_length|]. by rewrite seq_length. Qed.

Lemma unblocked_block m (blocked : list bool) a : length blocked = m -> a < m -> node_in blocked a = false -> unblocked m (<[a:=true]> blocked) + 1 <= unblocked m blocked.
Proof.
  intros Hl Ha Hb. unfold unblocked.
  assert (forall l : list nat, NoDup l -> length (filter (fun b => node_in (<[a:=true]> blocked) b = false) l) + (if decide (a ∈ l) then 1 else 0) <= length (filter (fun b => node_in blocked b = false) l)) as H.
  { induction l as [|b l IH]; intros Hnd; [cbn; by rewrite decide_False by apply not_elem_of_nil|].
    apply NoDup_cons in Hnd as [Hnb Hnd]. specialize (IH Hnd). rewrite !filter_cons. rewrite !node_in_insert by lia.
    destruct (decide (a = b)) as [<-|Hne].
    - rewrite (decide_False (P := true = false)) by done. rewrite (decide_True (P := node_in blocked a = false)) by done.
      rewrite decide_True by constructor. rewrite decide_False in IH by done. cbn [length]. lia.
    - assert ((if decide (a ∈ b :: l) then 1 else 0) = (if decide (a ∈ l) then 1 else 0)) as ->.
      { destruct (decide (a ∈ l)) as [Hin|Hin]; [rewrite decide_True; [done|by constructor]|].
        rewrite decide_False; [done|]. intros Hc. apply elem_of_cons in Hc as [?|?]; done. }
      destruct (decide (node_in blocked b = false)); cbn [length]; lia. }
  specialize (H (seq 0 m) (NoDup_seq _ _)). rewrite decide_True in H; [lia|]. apply elem_of_seq. lia.
Qed.

Lemma unblocked_ge m (blocked : list bool) (q : list nat) : NoDup q -> (forall a, a ∈ q -> a < m /\ node_in blocked a = false) -> length q <= unblocked m blocked.
Proof.
  intros Hnd Hq. apply submseteq_length, NoDup_submseteq; [done|]. intros a Ha. apply elem_of_list_filter.
  destruct (Hq a Ha). split; [done|]. apply elem_of_seq. lia.
Qed.

Section Aug.
  Context (g : fragment) (Hok : fragment_ok g) (source target : list bool).
  Notation n := (fr_nodes g).
  Notation m := (fr_arcs g).
  Context (Hsrc : length source = n) (Htgt : length target = n) (Hdis : forall x, node_in source x = true -> node_in target x = false).
  Context (lev : nat -> option nat).
  Context (Hlt : forall x l, lev x = Some l -> x < n) (Hlt0 : forall x, lev x = Some 0 <-> node_in source x = true) (Htl : forall x l, lev x = Some l -> node_in target x = false).
  Context (inten : nat).

  (** What an arc that is not blocked is good for. *)
  Definition free_ok (sat blocked : list bool) : Prop := forall a x y l, fr_tail g !! a = Some x -> fr_head g !! a = Some y -> lev x = Some l -> node_in blocked a = false ->
    node_in sat a = false /\ (node_in target y = true \/ lev y = Some (S l)).
  Record flow_inv (sat : list bool) (paths : nat) : Prop := {
    i_len : length sat = m;
    i_excl : excl g sat;
    i_net : forall S, separates g S source target -> net g sat S = Z.of_nat (inten + paths) }.
  (** [p], [q]: nodes and arcs of the path. *)
  Record path_ok (blocked : list bool) (p q : list nat) : Prop := {
    p_len : length p = S (length q);
    p_lev : forall j x, p !! j = Some x -> lev x = Some j;
    p_arc : forall j a, q !! j = Some a -> exists x y, p !! j = Some x /\ p !! S j = Some y /\ fr_tail g !! a = Some x /\ fr_head g !! a = Some y /\ node_in blocked a = false }.

  Lemma path_nodup blocked p q : path_ok blocked p q -> NoDup p.
  Proof.
    intros H. apply NoDup_alt. intros i j x Hi Hj. apply (p_lev _ _ _ H) in Hi, Hj. congruence.
  Qed.
  Lemma path_arcs_nodup blocked p q : path_ok blocked p q -> NoDup q.
  Proof.
    intros H. apply NoDup_alt. intros i j a Hi Hj.
    destruct (p_arc _ _ _ H i a Hi) as (x & y & H1 & _ & H2 & _). destruct (p_arc _ _ _ H j a Hj) as (x' & y' & H1' & _ & H2' & _).
    rewrite H2 in H2'. injection H2' as <-. apply (p_lev _ _ _ H) in H1, H1'. congruence.
  Qed.
  Lemma path_arcs_le blocked p q : path_ok blocked p q -> length q <= unblocked m blocked.
  Proof.
    intros H. apply unblocked_ge; [by eapply path_arcs_nodup|]. intros a Ha. apply elem_of_list_lookup in Ha as [j Hj].
    destruct (p_arc _ _ _ H j a Hj) as (x & y & _ & _ & H1 & _ & H2). split; [|done]. by apply lookup_lt_Some in H1.
  Qed.
  Lemma path_lt blocked p q y : path_ok blocked p q -> y ∉ p -> y < n -> length p < n.
  Proof.
    intros H Hy Hyn. pose proof (nodup_lt_len n (p ++ [y])) as Hlen. rewrite app_length in Hlen. cbn in Hlen.
    assert (length p + 1 <= n); [|lia]. apply Hlen.
    - apply nodup_snoc; [by eapply path_nodup|done].
    - intros z Hz. apply elem_of_app in Hz as [Hz|Hz].
      + apply elem_of_list_lookup in Hz as [j Hj]. by eapply Hlt, (p_lev _ _ _ H).
      + apply elem_of_list_singleton in Hz. by subst.
  Qed.

  (** The loop :191-201 over a whole path. *)
  Lemma augment_arcs asserts (arcs : list nat) e sat0 blocked0 (p q : list nat) paths :
    flow_inv sat0 paths -> length blocked0 = m -> free_ok sat0 blocked0 -> sarr n arcs e q -> 0 < length q ->
    length p = S (length q) ->
    (forall j x, j < length q -> p !! j = Some x -> lev x = Some j) ->
    (forall j a, q !! j = Some a -> exists x y, p !! j = Some x /\ p !! S j = Some y /\ fr_tail g !! a = Some x /\ fr_head g !! a = Some y /\ node_in blocked0 a = false) ->
    (exists t, p !! length q = Some t /\ node_in target t = true) ->
    exists sat blocked, for_range 0 e (augment_arc g asserts arcs) (sat0, blocked0) = Some (sat, blocked) /\
      flow_inv sat (paths + 1) /\ length blocked = m /\ free_ok sat blocked /\ unblocked m blocked + length q <= unblocked m blocked0 /\
      (forall a, node_in blocked0 a = true -> node_in blocked a = true).
  Proof.
    intros Hf Hbl Hfree Hsa Hpos Hpl Hlev Harc (t & Ht & Htt). pose proof Hsa as (_ & He & _).
    destruct (lookup_lt_is_Some_2 p 0) as [s0 Hs0]; [lia|].
    destruct (for_range_inv (fun i '(sat, blocked) => length sat = m /\ length blocked = m /\ excl g sat /\
       (forall S, net g sat S = net g sat0 S + b2z (node_in S s0) - match p !! i with Some x => b2z (node_in S x) | None => 0 end)%Z /\
       (forall a, node_in blocked a = true <-> node_in blocked0 a = true \/ a ∈ take i q) /\
       (forall a, node_in sat a = true -> node_in sat0 a = true \/ a ∈ take i q) /\
       unblocked m blocked + i <= unblocked m blocked0) (augment_arc g asserts arcs) 0 e (sat0, blocked0)) as ([sat blocked] & Hr & H1 & H2 & H3 & H4 & H5 & H6 & H7).
    - lia.
    - destruct Hf. split; [done|]. split; [done|]. split; [done|]. split; [|split; [|split; [|lia]]].
      + intros S. rewrite Hs0. lia.
      + intros a. rewrite take_0. split; [auto|]. intros [?|Hin]; [done|]. by apply elem_of_nil in Hin.
      + auto.
    - intros i [sat blocked] Hi (H1 & H2 & H3 & H4 & H5 & H6 & H7).
      destruct (lookup_lt_is_Some_2 q i) as [a Ha]; [lia|].
      destruct (Harc i a Ha) as (x & y & Hx & Hy & Hat & Hah & Hab).
      destruct (frag_tail_lt g Hok _ _ Hat) as [Ham Hxn]. destruct (frag_back g Hok a Ham) as (b & Hb & Hbm & _).
      pose proof (Hlev i x ltac:(lia) Hx) as Hlx.
      destruct (Hfree a x y i Hat Hah Hlx Hab) as [Hs0a Hgo].
      assert (a ∉ take i q) as Hni.
      { intros Hin. apply elem_of_take in Hin as (j & Hj & Hji). destruct (Harc j a Hj) as (x' & _ & Hx' & _ & Ht' & _).
        rewrite Hat in Ht'. injection Ht' as <-. pose proof (Hlev j x ltac:(lia) Hx'). rewrite Hlx in H. injection H as ?. lia. }
      assert (x <> y) as Hxy.
      { intros <-. destruct Hgo as [Hgo|Hgo]; [|rewrite Hlx in Hgo; injection Hgo; lia]. rewrite (Htl _ _ Hlx) in Hgo. done. }
      assert (node_in sat a = false) as Hsat.
      { destruct (node_in sat a) eqn:E; [|done]. apply H6 in E as [E|E]; [congruence|done]. }
      assert (node_in blocked a = false) as Hbk.
      { destruct (node_in blocked a) eqn:E; [|done]. apply H5 in E as [E|E]; [congruence|done]. }
      unfold augment_arc. rewrite (sarr_lookup _ _ _ _ _ Hsa) by lia. rewrite Ha, bind_S.
      rewrite (lk_bool sat m a) by done. rewrite bind_S, Hsat.
      replace (implb asserts (negb false)) with true by (by destruct asserts). cbn [chk]. rewrite bind_S.
      rewrite (wr_Some blocked) by lia. rewrite bind_S, Hb, bind_S. rewrite (lk_bool sat m b) by done. rewrite bind_S.
      exists (push sat a b, <[a:=true]> blocked). split.
      { unfold push. destruct (node_in sat b); rewrite wr_Some by lia; by rewrite bind_S. }
      split; [by rewrite push_len|]. split; [by rewrite insert_length|]. split; [by eapply push_excl|]. split; [|split; [|split]].
      + intros S. rewrite (push_net g Hok sat S a b x y) by done. rewrite H4, Hx, Hy. lia.
      + intros c. rewrite node_in_insert by lia. rewrite (take_S_r _ _ _ Ha), elem_of_app, elem_of_list_singleton. case_decide as Hc; [subst; split; auto|].
        rewrite H5. split; [intros [?|?]; auto|]. intros [?|[?|?]]; auto; congruence.
      + intros c Hc. rewrite (take_S_r _ _ _ Ha), elem_of_app, elem_of_list_singleton. destruct (push_others g sat a b c) as [Hc'|Hc']; [done..|auto|].
        apply H6 in Hc' as [?|?]; auto.
      + pose proof (unblocked_block m blocked a H2 Ham Hbk). lia.
    - exists sat, blocked. split; [done|]. assert (take e q = q) as Htk by (apply take_ge; lia). rewrite Htk in *.
      split; [|split; [done|split; [|split; [lia|]]]].
      + destruct Hf as [Hf1 Hf2 Hf3]. split; [done|done|]. intros S HS. rewrite H4, (Hf3 S HS). rewrite He, Ht.
        destruct HS as (_ & HS1 & HS2). rewrite (HS2 t Htt). rewrite (HS1 s0); [cbn; lia|]. apply Hlt0. apply (Hlev 0); [lia|done].
      + intros a x y l Hx Hy Hl Hb. assert (node_in blocked0 a = false /\ a ∉ q) as [Hb0 Hnq].
        { split; [destruct (node_in blocked0 a) eqn:E; [|done]|intros Hin]; rewrite (proj2 (H5 a)) in Hb by auto; done. }
        destruct (Hfree a x y l Hx Hy Hl Hb0) as [Hs Hgo]. split; [|done].
        destruct (node_in sat a) eqn:E; [|done]. apply H6 in E as [E|E]; [congruence|done].
      + intros a Ha. apply H5. auto.
  Qed.

  (** The arcs of a path that leads from a source to a target. They stay free until the first path is found. *)
  Context (W : nat -> Prop).
  Context (HW : forall a, W a -> exists x y, fr_tail g !! a = Some x /\ fr_head g !! a = Some y /\ (node_in target y = true \/ exists b, W b /\ fr_tail g !! b = Some y)).

  Record aug_inv (s : aug) : Prop := {
    u_flow : flow_inv (a_sat s) (a_paths s);
    u_blen : length (a_blocked s) = m;
    u_free : free_ok (a_sat s) (a_blocked s);
    u_wit : a_paths s = 0 -> forall a, W a -> node_in (a_blocked s) a = false }.

  (** :163-168 *)
  Lemma find_free_spec (blocked : list bool) x : length blocked = m -> x < n ->
    exists r, find_free g blocked x = Some r /\ match r with
      | Some a => fr_tail g !! a = Some x /\ node_in blocked a = false
      | None => forall a, fr_tail g !! a = Some x -> node_in blocked a = true end.
  Proof.
    intros Hb Hx. unfold find_free. destruct (frag_range g Hok x Hx) as (lo & hi & Hlo & Hhi & Hr & Hin & Hout).
    rewrite Hlo, bind_S, Hhi, bind_S.
    assert (forall k a, lo <= a -> a + k = hi -> (forall c, lo <= c < a -> node_in blocked c = true) -> exists r, first_free blocked k a = Some r /\ match r with
      | Some a => fr_tail g !! a = Some x /\ node_in blocked a = false
      | None => forall a, fr_tail g !! a = Some x -> node_in blocked a = true end) as H.
    { induction k as [|k IH]; intros a Ha Hk Hc; cbn [first_free].
      - exists None. split; [done|]. intros c Ht. apply Hc. apply Hout in Ht. lia.
      - rewrite (lk_bool blocked m a) by lia. rewrite bind_S. destruct (node_in blocked a) eqn:E.
        + apply IH; [lia..|]. intros c Hcr. destruct (decide (c = a)) as [->|]; [done|]. apply Hc. lia.
        + exists (Some a). split; [done|]. split; [|done]. apply Hin. lia. }
    apply H; [lia..|]. intros c Hc. lia.
  Qed.

  Lemma aug_loop_spec asserts fuel s (p q : list nat) x0 :
    aug_inv s -> path_ok (a_blocked s) p q -> p !! 0 = Some x0 -> sarr n (a_node s) (a_len s + 1) p -> sarr n (a_arc s) (a_len s) q ->
    2 * unblocked m (a_blocked s) < fuel + length q ->
    exists s', aug_loop g asserts target fuel s = Some s' /\ aug_inv s' /\ length (a_node s') = n /\ length (a_arc s') = n /\ a_paths s <= a_paths s' /\
      (forall a, fr_tail g !! a = Some x0 -> node_in (a_blocked s') a = true).
  Proof.
    revert s p q. induction fuel as [|fuel IH]; intros s p q H Hp Hx0 Hn Ha Hfuel.
    { pose proof (path_arcs_le _ _ _ Hp). lia. }
    cbn [aug_loop]. pose proof Hn as (Hnl & Hne & _). pose proof Ha as (Hal & Hae & _).
    destruct (lookup_lt_is_Some_2 p (a_len s)) as [x Hx]; [lia|].
    pose proof (p_lev _ _ _ Hp _ _ Hx) as Hlx. pose proof (Hlt _ _ Hlx) as Hxn.
    rewrite (sarr_lookup _ _ _ _ _ Hn) by lia. rewrite Hx, bind_S.
    destruct (find_free_spec (a_blocked s) x (u_blen _ H) Hxn) as (r & Hr & Hspec). rewrite Hr, bind_S. destruct r as [xy|].
    - destruct Hspec as [Hxt Hxb]. destruct (frag_tail_lt g Hok _ _ Hxt) as [Ham _]. destruct (frag_head g Hok xy Ham) as (y & Hy & Hyn).
      destruct (u_free _ H xy x y _ Hxt Hy Hlx Hxb) as [Hxs Hgo].
      assert (y ∉ p) as Hyp.
      { intros Hin. apply elem_of_list_lookup in Hin as [j Hj]. pose proof (p_lev _ _ _ Hp _ _ Hj) as Hl. apply lookup_lt_Some in Hj.
        destruct Hgo as [Hgo|Hgo]; [rewrite (Htl _ _ Hl) in Hgo; done|]. rewrite Hl in Hgo. injection Hgo as ->. lia. }
      pose proof (path_lt _ _ _ y Hp Hyp Hyn) as Hpn.
      rewrite Hy, bind_S. destruct (sarr_push _ _ _ _ xy Ha ltac:(lia)) as (arcs & Hw1 & Ha'). rewrite Hw1, bind_S.
      destruct (sarr_push _ _ _ _ y Hn ltac:(lia)) as (nodes & Hw2 & Hn'). rewrite Hw2, bind_S.
      rewrite (lk_bool target n y Htgt Hyn), bind_S.
      assert (forall j a, (q ++ [xy]) !! j = Some a -> exists x y0, (p ++ [y]) !! j = Some x /\ (p ++ [y]) !! S j = Some y0 /\ fr_tail g !! a = Some x /\ fr_head g !! a = Some y0 /\ node_in (a_blocked s) a = false) as Harcs.
      { intros j a Hj. apply lookup_app_Some in Hj as [Hj|[Hj1 Hj2]].
        - destruct (p_arc _ _ _ Hp _ _ Hj) as (x' & y' & H1 & H2 & H3). exists x', y'. rewrite !lookup_app_l; [done| |].
          + by apply lookup_lt_Some in H2. + by apply lookup_lt_Some in H1.
        - apply list_lookup_singleton_Some in Hj2 as [Hj2 <-]. assert (j = length q) as -> by lia. exists x, y.
          rewrite lookup_app_l by lia. rewrite lookup_app_r by lia. replace (S (length q) - length p) with 0 by lia.
          rewrite <- Hae. done. }
      destruct (node_in target y) eqn:Et.
      + destruct (augment_arcs asserts arcs (a_len s + 1) (a_sat s) (a_blocked s) (p ++ [y]) (q ++ [xy]) (a_paths s)
          (u_flow _ H) (u_blen _ H) (u_free _ H) Ha') as (sat & blocked & Hf & Hf1 & Hf2 & Hf3 & Hf4 & Hf5).
        * rewrite app_length. cbn. lia.
        * rewrite !app_length. cbn. rewrite (p_len _ _ _ Hp). lia.
        * intros j z Hj Hz. rewrite app_length in Hj. cbn in Hj. rewrite lookup_app_l in Hz by lia. by apply (p_lev _ _ _ Hp).
        * exact Harcs.
        * exists y. split; [|done]. rewrite app_length. cbn [length]. rewrite lookup_app_r by lia. replace (length q + 1 - length p) with 0 by (rewrite (p_len _ _ _ Hp); lia). done.
        * rewrite Hf, bind_S. rewrite app_length in Hf4. cbn in Hf4.
          destruct (IH (mkAug nodes arcs 0 sat blocked (a_paths s + 1)) [x0] []) as (s' & Hs' & Hi' & Hn1 & Ha1 & Hpa & Hx0').
          -- split; cbn [a_sat a_paths a_blocked]; try done. lia.
          -- split; [done| |done]. intros j z Hj. apply list_lookup_singleton_Some in Hj as [-> <-]. by apply (p_lev _ _ _ Hp).
          -- done.
          -- cbn [a_node a_len]. destruct Hn' as (Hl1 & Hl2 & Hl3). split; [done|]. split; [done|].
             apply (f_equal (take 1)) in Hl3. rewrite take_take in Hl3. replace (1 `min` (a_len s + 1 + 1)) with 1 in Hl3 by lia.
             change (0 + 1) with 1. rewrite Hl3. destruct p; [done|]. cbn in Hx0 |- *. injection Hx0 as ->. done.
          -- cbn [a_arc a_len]. by eapply sarr_reset.
          -- cbn [a_blocked length]. lia.
          -- exists s'. cbn [a_paths] in Hpa. split; [done|]. split; [done|]. split; [done|]. split; [done|]. split; [lia|done].
      + destruct (IH (mkAug nodes arcs (a_len s + 1) (a_sat s) (a_blocked s) (a_paths s)) (p ++ [y]) (q ++ [xy])) as (s' & Hs' & Hrest).
        * destruct H. split; done.
        * destruct Hgo as [Hgo|Hgo]; [congruence|]. split; cbn [a_blocked].
          -- rewrite !app_length. cbn. rewrite (p_len _ _ _ Hp). lia.
          -- intros j z Hj. apply lookup_app_Some in Hj as [Hj|[Hj1 Hj2]]; [by apply (p_lev _ _ _ Hp)|].
             apply list_lookup_singleton_Some in Hj2 as [Hj2 <-]. rewrite Hgo. f_equal. lia.
          -- exact Harcs.
        * rewrite lookup_app_l by lia. done.
        * cbn [a_node a_len]. exact Hn'.
        * exact Ha'.
        * cbn [a_blocked]. rewrite app_length. cbn. lia.
        * exists s'. done.
    - destruct (a_len s =? 0) eqn:E0.
      + apply Nat.eqb_eq in E0. exists s. split; [done|]. split; [done|]. split; [done|]. split; [done|]. split; [done|].
        intros a Hat. apply Hspec. rewrite E0 in Hx. congruence.
      + apply Nat.eqb_neq in E0.
        destruct (lookup_lt_is_Some_2 q (length q - 1)) as [a Hqa]; [lia|].
        assert (exists q', q = q' ++ [a]) as [q' ->].
        { exists (take (length q - 1) q). rewrite <- (take_S_r _ _ _ Hqa). rewrite take_ge; [done|lia]. }
        assert (exists p', p = p' ++ [x]) as [p' ->].
        { exists (take (a_len s) p). rewrite <- (take_S_r _ _ _ Hx). rewrite take_ge; [done|lia]. }
        rewrite !app_length in *. cbn [length] in *.
        destruct (sarr_pop _ _ _ _ _ Ha) as (_ & Hak & Ha'). destruct (sarr_pop _ _ _ _ _ Hn) as (_ & _ & Hn').
        rewrite Hak, bind_S. destruct (p_arc _ _ _ Hp _ _ Hqa) as (x' & y' & Hx' & Hy' & Hat & Hah & Hab).
        destruct (frag_tail_lt g Hok _ _ Hat) as [Ham _].
        assert (y' = x) as ->. { replace (S (length q' + 1 - 1)) with (a_len s) in Hy' by lia. congruence. }
        rewrite wr_Some by (rewrite (u_blen _ H); done). rewrite bind_S.
        destruct (IH (mkAug (a_node s) (a_arc s) (a_len s - 1) (a_sat s) (<[a:=true]> (a_blocked s)) (a_paths s)) p' q') as (s' & Hs' & Hrest).
        * destruct H as [H1 H2 H3 H4]. split; cbn [a_sat a_blocked a_paths]; try done.
          -- by rewrite insert_length.
          -- intros c z w l Hz Hw Hl Hc. rewrite node_in_insert in Hc by lia. case_decide; [done|]. by eapply H3.
          -- intros Hpz c Hc. rewrite node_in_insert by lia. case_decide as Hac; [|by apply H4]. subst c. exfalso.
             destruct (HW a Hc) as (z & w & Hz & Hw & Hor). rewrite Hah in Hw. injection Hw as <-.
             destruct Hor as [Hor|(b & Hb & Hbt)]; [rewrite (Htl _ _ Hlx) in Hor; done|].
             pose proof (Hspec b Hbt) as Hbb. rewrite (H4 Hpz b Hb) in Hbb. done.
        * pose proof (p_len _ _ _ Hp) as Hpl. rewrite !app_length in Hpl. cbn in Hpl. split; cbn [a_blocked].
          -- lia.
          -- intros j z Hj. apply (p_lev _ _ _ Hp). by apply lookup_app_l_Some.
          -- intros j c Hj. destruct (p_arc _ _ _ Hp j c) as (z & w & Hz & Hw & Ht & Hh & Hb); [by apply lookup_app_l_Some|].
             pose proof (lookup_lt_Some _ _ _ Hj). rewrite lookup_app_l in Hz by lia. rewrite lookup_app_l in Hw by lia.
             exists z, w. split; [done|]. split; [done|]. split; [done|]. split; [done|]. rewrite node_in_insert by (rewrite (u_blen _ H); done).
             case_decide as Hac; [|done]. subst c. exfalso. rewrite Hat in Ht. injection Ht as <-.
             rewrite lookup_app_l in Hx' by lia.
             apply (lookup_app_l_Some _ [x]) in Hx', Hz. apply (p_lev _ _ _ Hp) in Hx', Hz. rewrite Hz in Hx'. injection Hx' as ?. lia.
        * rewrite lookup_app_l in Hx0; [done|]. pose proof (p_len _ _ _ Hp) as Hpl. rewrite !app_length in Hpl. cbn in Hpl. lia.
        * cbn [a_node a_len]. replace (a_len s - 1 + 1) with (a_len s + 1 - 1) by lia. done.
        * cbn [a_arc a_len]. done.
        * cbn [a_blocked]. pose proof (unblocked_block m (a_blocked s) a (u_blen _ H) Ham Hab). lia.
        * exists s'. done.
  Qed.

  (** :159-210 *)
  Lemma augment_all_spec asserts (sat blocked : list bool) :
    flow_inv sat 0 -> length blocked = m -> free_ok sat blocked -> (forall a, W a -> node_in blocked a = false) ->
    (exists a x, W a /\ fr_tail g !! a = Some x /\ node_in source x = true) ->
    exists sat' blocked' paths, augment_all g asserts source target sat blocked = Some (sat', blocked', paths) /\
      flow_inv sat' paths /\ length blocked' = m /\ 0 < paths.
  Proof.
    intros Hf Hb Hfree Hw (a0 & x0 & Ha0 & Hx0 & Hs0). destruct (frag_tail_lt g Hok _ _ Hx0) as [_ Hx0n].
    unfold augment_all.
    match goal with |- context [for_range 0 n ?body ?init] =>
      destruct (for_range_inv (fun k s => aug_inv s /\ length (a_node s) = n /\ length (a_arc s) = n /\ (x0 < k -> 0 < a_paths s)) body 0 n init) as (s' & Hr & Hi & _ & _ & Hpos) end.
    - lia.
    - split; [|split; [by apply replicate_length|split; [by apply replicate_length|lia]]]. split; cbn [a_sat a_blocked a_paths]; done.
    - intros k s Hk (Hi & Hn & Ha & Hpos). rewrite (lk_bool source n k Hsrc ltac:(lia)), bind_S. destruct (node_in source k) eqn:Ek.
      + rewrite (wr_Some (a_node s)) by lia. rewrite bind_S. rewrite (wr_Some (a_arc s)) by lia. rewrite bind_S.
        destruct (aug_loop_spec asserts (2 * m + 1) (mkAug (<[0:=k]> (a_node s)) (<[0:=k]> (a_arc s)) 0 (a_sat s) (a_blocked s) (a_paths s)) [k] [] k) as (s' & Hs' & Hi' & Hn' & Ha' & Hle & Hblk).
        * destruct Hi. split; done.
        * split; [done| |done]. intros j z Hj. apply list_lookup_singleton_Some in Hj as [-> <-]. by apply Hlt0.
        * done.
        * cbn [a_node a_len]. split; [by rewrite insert_length|]. split; [done|]. destruct (a_node s); [cbn in Hn; lia|]. done.
        * cbn [a_arc a_len]. split; [by rewrite insert_length|]. done.
        * cbn [a_blocked length]. pose proof (unblocked_le m (a_blocked s)). lia.
        * exists s'. split; [done|]. split; [done|]. split; [done|]. split; [done|]. intros Hk0. cbn [a_paths] in Hle.
          destruct (decide (x0 < k)) as [Hlt'|Hge]; [specialize (Hpos Hlt'); lia|]. assert (k = x0) as -> by lia.
          destruct (decide (a_paths s' = 0)) as [Hz|Hz]; [|lia]. exfalso.
          pose proof (u_wit _ Hi' Hz a0 Ha0) as Hc. rewrite (Hblk a0 Hx0) in Hc. done.
      + exists s. split; [done|]. split; [done|]. split; [done|]. split; [done|]. intros Hk0. apply Hpos.
        destruct (decide (k = x0)) as [->|]; [congruence|lia].
    - rewrite Hr, bind_S. eexists _, _, _. split; [done|]. split; [apply (u_flow _ Hi)|]. split; [apply (u_blen _ Hi)|]. by apply Hpos.
  Qed.
End Aug.
