(** compute_blocking_flow (src/nested_dissection.cpp:107-157): the arcs that are not blocked lead from one level to the next. *)
From Verif Require Import Base UtilSpec GraphSpec FlowModel FlowSpec FlowArray.

Ltac Zify.zify_post_hook ::= idtac.

Section Bfs.
  Context (g : fragment) (Hok : fragment_ok g) (source target sat : list bool).
  Notation n := (fr_nodes g).
  Notation m := (fr_arcs g).
  Context (Hsrc : length source = n) (Htgt : length target = n) (Hdis : forall x, node_in source x = true -> node_in target x = false).
  Context (Hsat : length sat = m).

  (** What is known about an arc from [x] to [y] that was looked at. *)
  Definition arc_done (lev : nat -> option nat) (blocked : list bool) (found : bool) (a x y : nat) : Prop :=
    exists l, lev x = Some l /\
      ((node_in blocked a = true /\ (node_in sat a = true \/ exists l', lev y = Some l' /\ l' <= l)) \/
       (node_in blocked a = false /\ node_in sat a = false /\ ((node_in target y = true /\ found = true) \/ lev y = Some (S l)))).

  (** [q]: all nodes found so far; the first [qc] are below level [i], the others on level [i]. [D]: the arcs looked at, [U] the others. *)
  Record lv (i qc : nat) (D U : nat -> Prop) (q : list nat) (lev : nat -> option nat) (s : bfs) : Prop := {
    v_same_len : length (b_same s) = n;
    v_pushed_len : length (b_pushed s) = n;
    v_blocked_len : length (b_blocked s) = m;
    v_q : sarr n (b_queue s) (b_end s) q;
    v_nodup : NoDup q;
    v_qc : qc <= length q;
    v_dom : forall k x, q !! k = Some x -> exists l, lev x = Some l /\ (k < qc -> l < i) /\ (qc <= k -> l = i);
    v_lev : forall x l, lev x = Some l -> x ∈ q /\ x < n /\ l <= i;
    v_same : forall x, node_in (b_same s) x = true <-> exists l, lev x = Some l /\ l < i;
    v_pushed : forall x, node_in (b_pushed s) x = true -> exists l, lev x = Some l;
    v_pushed' : forall x, lev x = Some i -> 0 < i -> node_in (b_pushed s) x = true;
    v_source : forall x, lev x = Some 0 <-> node_in source x = true;
    v_target : forall x l, lev x = Some l -> node_in target x = false;
    v_done : forall a x y, D a -> fr_tail g !! a = Some x -> fr_head g !! a = Some y -> arc_done lev (b_blocked s) (b_found s) a x y;
    v_undone : forall a, U a -> node_in (b_blocked s) a = false;
    v_pred : forall y l, lev y = Some (S l) -> exists a x, fr_tail g !! a = Some x /\ fr_head g !! a = Some y /\ lev x = Some l /\ node_in sat a = false;
    v_found : b_found s = true -> exists a x y l, fr_tail g !! a = Some x /\ fr_head g !! a = Some y /\ lev x = Some l /\ node_in sat a = false /\ node_in target y = true }.

  (** :132-149 *)
  Lemma bfs_arc_spec i qc D U q lev s a x :
    lv (S i) qc D U q lev s -> fr_tail g !! a = Some x -> lev x = Some i -> U a ->
    exists s' q' lev', bfs_arc g target sat a s = Some s' /\
      lv (S i) qc (fun b => D b \/ b = a) (fun b => U b /\ b <> a) q' lev' s' /\ q `prefix_of` q' /\ (forall z l, lev z = Some l -> lev' z = Some l).
  Proof.
    intros H Ha Hx HU. destruct (frag_tail_lt g Hok _ _ Ha) as [Ham Hxn]. destruct (frag_head g Hok a Ham) as (y & Hy & Hyn).
    unfold bfs_arc. rewrite (lk_bool sat m a Hsat Ham), bind_S.
    assert (forall d, (node_in sat a = true \/ exists l', lev y = Some l' /\ l' <= i) -> d = b_found s ->
      exists s' q' lev', (blocked ← wr (b_blocked s) a true; Some (mkBfs (b_same s) (b_pushed s) blocked (b_queue s) (b_end s) d)) = Some s' /\
      lv (S i) qc (fun b => D b \/ b = a) (fun b => U b /\ b <> a) q' lev' s' /\ q `prefix_of` q' /\ (forall z l, lev z = Some l -> lev' z = Some l)) as Hblock.
    { intros d Hwhy ->. rewrite wr_Some by (rewrite (v_blocked_len _ _ _ _ _ _ _ H); done). rewrite bind_S.
      eexists _, q, lev. split; [done|]. split; [|done].
      destruct H. split; cbn [b_same b_pushed b_blocked b_queue b_end b_found]; try done.
      - by rewrite insert_length.
      - intros b x' y' Hb Hx' Hy'. unfold arc_done. rewrite node_in_insert by lia. destruct (decide (a = b)) as [<-|Hne].
        + rewrite Ha in Hx'. rewrite Hy in Hy'. injection Hx' as <-. injection Hy' as <-. exists i. split; [done|]. left. done.
        + destruct Hb as [Hb|Hb]; [|congruence]. by apply v_done0.
      - intros b [Hb Hne]. rewrite node_in_insert by lia. rewrite decide_False by congruence. by apply v_undone0. }
    destruct (node_in sat a) eqn:Es; [apply Hblock; [by left|done]|].
    rewrite Hy, bind_S. rewrite (lk_bool _ n y (v_same_len _ _ _ _ _ _ _ H) Hyn), bind_S.
    destruct (node_in (b_same s) y) eqn:Esame.
    { apply Hblock; [|done]. right. apply (v_same _ _ _ _ _ _ _ H) in Esame as (l & Hl & Hlt). exists l. split; [done|lia]. }
    rewrite (lk_bool target n y Htgt Hyn), bind_S. clear Hblock.
    pose proof (v_undone _ _ _ _ _ _ _ H a HU) as Hun.
    destruct (node_in target y) eqn:Et.
    - eexists _, q, lev. split; [done|]. split; [|done].
      destruct H. split; cbn [b_same b_pushed b_blocked b_queue b_end b_found]; try done.
      + intros b x' y' [Hb| ->] Hx' Hy'.
        * destruct (v_done0 b x' y' Hb Hx' Hy') as (l & Hl & [Hc|(H1 & H2 & [[H3 _]|H3])]); exists l; (split; [done|]); [by left|right|right]; auto.
        * rewrite Ha in Hx'. rewrite Hy in Hy'. injection Hx' as <-. injection Hy' as <-. exists i. split; [done|]. right. auto.
      + intros b [Hb Hne]. by apply v_undone0.
      + intros _. exists a, x, y, i. done.
    - rewrite (lk_bool _ n y (v_pushed_len _ _ _ _ _ _ _ H) Hyn), bind_S.
      destruct (node_in (b_pushed s) y) eqn:Ep.
      + assert (lev y = Some (S i)) as Hly.
        { destruct (v_pushed _ _ _ _ _ _ _ H y Ep) as [l Hl]. destruct (v_lev _ _ _ _ _ _ _ H _ _ Hl) as (_ & _ & Hle).
          destruct (decide (l = S i)) as [->|Hne]; [done|]. exfalso.
          assert (node_in (b_same s) y = true) as Hs by (apply (v_same _ _ _ _ _ _ _ H); exists l; split; [done|lia]). congruence. }
        exists s, q, lev. split; [done|]. split; [|done].
        destruct H. split; try done.
        * intros b x' y' [Hb| ->] Hx' Hy'; [by apply v_done0|].
          rewrite Ha in Hx'. rewrite Hy in Hy'. injection Hx' as <-. injection Hy' as <-. exists i. split; [done|]. right. auto.
        * intros b [Hb Hne]. by apply v_undone0.
      + assert (lev y = None) as Hly.
        { destruct (lev y) as [l|] eqn:Hl; [|done]. exfalso. destruct (v_lev _ _ _ _ _ _ _ H _ _ Hl) as (_ & _ & Hle).
          destruct (decide (l = S i)) as [->|Hne].
          - rewrite (v_pushed' _ _ _ _ _ _ _ H y Hl) in Ep by lia. done.
          - assert (node_in (b_same s) y = true) as Hs by (apply (v_same _ _ _ _ _ _ _ H); exists l; split; [done|lia]). congruence. }
        assert (y ∉ q) as Hyq.
        { intros Hin. apply elem_of_list_lookup in Hin as [k Hk]. destruct (v_dom _ _ _ _ _ _ _ H _ _ Hk) as (l & Hl & _). congruence. }
        assert (forall z, z ∈ q -> z < n) as Hqn.
        { intros z Hz. apply elem_of_list_lookup in Hz as [k Hk]. destruct (v_dom _ _ _ _ _ _ _ H _ _ Hk) as (l & Hl & _). by apply (v_lev _ _ _ _ _ _ _ H) in Hl as (_ & ? & _). }
        assert (NoDup (q ++ [y])) as Hnd by (apply nodup_snoc; [apply (v_nodup _ _ _ _ _ _ _ H)|done]).
        assert (length q < n) as Hqlen.
        { pose proof (nodup_lt_len n _ Hnd) as Hlen. rewrite app_length in Hlen. cbn in Hlen.
          assert (forall z, z ∈ q ++ [y] -> z < n); [|lia || (specialize (Hlen ltac:(assumption)); lia)].
          intros z Hz. apply elem_of_app in Hz as [Hz|Hz]; [by apply Hqn|]. apply elem_of_list_singleton in Hz. by subst. }
        destruct (sarr_push n _ _ _ y (v_q _ _ _ _ _ _ _ H) Hqlen) as (arr' & Hw & Hsa).
        rewrite Hw, bind_S. rewrite wr_Some by (rewrite (v_pushed_len _ _ _ _ _ _ _ H); done). rewrite bind_S.
        set (lev' := fun z => if decide (z = y) then Some (S i) else lev z).
        assert (forall z l, lev z = Some l -> lev' z = Some l) as Hext.
        { intros z l Hz. unfold lev'. case_decide; [congruence|done]. }
        assert (lev' y = Some (S i)) as Hy' by (unfold lev'; by rewrite decide_True).
        assert (forall z l, lev' z = Some l -> (z = y /\ l = S i) \/ lev z = Some l) as Hinv.
        { intros z l. unfold lev'. case_decide; [intros [= <-]; by left|by right]. }
        eexists _, (q ++ [y]), lev'. split; [done|]. split; [|split; [by apply prefix_app_r|done]].
        destruct H. split; cbn [b_same b_pushed b_blocked b_queue b_end b_found]; try done.
        * by rewrite insert_length.
        * rewrite app_length. lia.
        * intros k z Hk. apply lookup_app_Some in Hk as [Hk|[Hk1 Hk2]].
          -- destruct (v_dom0 k z Hk) as (l & Hl & H1 & H2). exists l. split; [by apply Hext|done].
          -- apply list_lookup_singleton_Some in Hk2 as [Hk2 <-]. exists (S i). split; [done|]. split; [lia|done].
        * intros z l Hz. destruct (Hinv _ _ Hz) as [[-> ->]|Hz'].
          -- split; [|done]. apply elem_of_app. right. by apply elem_of_list_singleton.
          -- destruct (v_lev0 z l Hz') as (H1 & H2 & H3). split; [|done]. apply elem_of_app. by left.
        * intros z. rewrite v_same0. split; intros (l & Hl & Hlt).
          -- exists l. split; [by apply Hext|done].
          -- destruct (Hinv _ _ Hl) as [[-> ->]|Hz']; [lia|]. by exists l.
        * intros z. rewrite node_in_insert by lia. case_decide as Hz; [subst; by exists (S i)|].
          intros Hp. destruct (v_pushed0 z Hp) as [l Hl]. exists l. by apply Hext.
        * intros z Hz _. rewrite node_in_insert by lia. case_decide as Hyz; [done|].
          destruct (Hinv _ _ Hz) as [[-> _]|Hz']; [done|]. apply v_pushed'0; [done|lia].
        * intros z. rewrite <- v_source0. split; intros Hz; [|by apply Hext].
          destruct (Hinv _ _ Hz) as [[_ ?]|Hz']; [lia|done].
        * intros z l Hz. destruct (Hinv _ _ Hz) as [[-> _]|Hz']; [done|by apply (v_target0 z l)].
        * intros b x' y' [Hb| ->] Hx' Hy''.
          -- destruct (v_done0 b x' y' Hb Hx' Hy'') as (l & Hl & [(H1 & [H2|(l' & H2 & H3)])|(H1 & H2 & [H3|H3])]); exists l; (split; [by apply Hext|]).
             ++ left. split; [done|]. by left.
             ++ left. split; [done|]. right. exists l'. split; [by apply Hext|done].
             ++ right. split; [done|]. split; [done|]. by left.
             ++ right. split; [done|]. split; [done|]. right. by apply Hext.
          -- rewrite Ha in Hx'. rewrite Hy in Hy''. injection Hx' as <-. injection Hy'' as <-. exists i. split; [by apply Hext|]. right.
             split; [done|]. split; [done|]. by right.
        * intros b [Hb Hne]. by apply v_undone0.
        * intros z l Hz. destruct (Hinv _ _ Hz) as [[-> Hl]|Hz'].
          -- injection Hl as ->. exists a, x. split; [done|]. split; [done|]. split; [by apply Hext|done].
          -- destruct (v_pred0 z l Hz') as (b & x' & H1 & H2 & H3 & H4). exists b, x'. split; [done|]. split; [done|]. split; [by apply Hext|done].
        * intros Hf. destruct (v_found0 Hf) as (b & x' & y' & l & H1 & H2 & H3 & H4 & H5). exists b, x', y', l. split; [done|]. split; [done|]. split; [by apply Hext|done].
  Qed.

  Lemma lv_ext i qc (D U D' U' : nat -> Prop) q lev s : lv i qc D U q lev s -> (forall a, D' a -> D a) -> (forall a, U' a -> a < m -> U a) -> lv i qc D' U' q lev s.
  Proof.
    intros H HD HU. destruct H. split; try done.
    - intros a x y Ha Hx Hy. apply v_done0; auto.
    - intros a Ha. destruct (decide (a < m)) as [Hlt|Hge]; [by apply v_undone0, HU|].
      unfold node_in. rewrite lookup_ge_None_2 by lia. done.
  Qed.

  (** Arcs that leave one of the first [k] nodes of [q], and the others. *)
  Definition Dq (q : list nat) (k : nat) (a : nat) : Prop := exists j x, j < k /\ q !! j = Some x /\ fr_tail g !! a = Some x.
  Definition Uq (q : list nat) (k : nat) (a : nat) : Prop := forall j x, j < k -> q !! j = Some x -> fr_tail g !! a <> Some x.

  (** :131-150 *)
  Lemma bfs_node_spec i qc k q lev s x :
    lv (S i) qc (Dq q k) (Uq q k) q lev s -> q !! k = Some x -> lev x = Some i ->
    exists s' q' lev', bfs_node g target sat k s = Some s' /\
      lv (S i) qc (Dq q' (S k)) (Uq q' (S k)) q' lev' s' /\ q `prefix_of` q' /\ (forall z l, lev z = Some l -> lev' z = Some l).
  Proof.
    intros H Hk Hx. unfold bfs_node.
    rewrite (sarr_lookup _ _ _ _ _ (v_q _ _ _ _ _ _ _ H)).
    2: { destruct (v_q _ _ _ _ _ _ _ H) as (_ & -> & _). by apply lookup_lt_Some in Hk. }
    rewrite Hk, bind_S. destruct (v_lev _ _ _ _ _ _ _ H _ _ Hx) as (_ & Hxn & _).
    destruct (frag_range g Hok x Hxn) as (lo & hi & Hlo & Hhi & Hr & Hin & Hout).
    rewrite Hlo, bind_S, Hhi, bind_S.
    destruct (for_range_inv (fun e s' => exists q' lev', lv (S i) qc (fun a => Dq q k a \/ lo <= a < e) (fun a => Uq q k a /\ ~ lo <= a < e) q' lev' s' /\
      q `prefix_of` q' /\ (forall z l, lev z = Some l -> lev' z = Some l)) (bfs_arc g target sat) lo hi s) as (s' & Hf & q' & lev' & Hv & Hp & He).
    - lia.
    - exists q, lev. split; [|done]. eapply lv_ext; [exact H| |].
      + intros a [Ha|Ha]; [done|lia].
      + intros a [Ha _] _. done.
    - intros a s1 Ha (q1 & lev1 & Hv & Hp & He).
      destruct (bfs_arc_spec i qc _ _ q1 lev1 s1 a x Hv (Hin a Ha) (He _ _ Hx)) as (s2 & q2 & lev2 & Hs & Hv2 & Hp2 & He2).
      { split; [|lia]. intros j z Hj Hz Ht. rewrite (Hin a Ha) in Ht. injection Ht as <-.
        assert (j = k) by (eapply NoDup_lookup; [apply (v_nodup _ _ _ _ _ _ _ H)|done|done]). lia. }
      exists s2. split; [done|]. exists q2, lev2. split; [|split; [by transitivity q1|auto]].
      eapply lv_ext; [exact Hv2| |].
      + intros b [Hb|Hb]; [auto|]. destruct (decide (b = a)); [auto|]. left. right. lia.
      + intros b [Hb Hnb] _. split; [|lia]. split; [done|]. lia.
    - rewrite Hf. exists s', q', lev'. split; [done|]. split; [|done].
      assert (forall j z, q !! j = Some z -> q' !! j = Some z) as Hpre by (intros j z Hz; by eapply prefix_lookup).
      eapply lv_ext; [exact Hv| |].
      + intros a (j & z & Hj & Hz & Ht). destruct (decide (j < k)) as [Hlt|Hge].
        * left. exists j, z. split; [done|]. split; [|done]. destruct (lookup_lt_is_Some_2 q j) as [z' Hz']; [apply lookup_lt_Some in Hk; lia|].
          rewrite (Hpre _ _ Hz') in Hz. by simplify_eq.
        * replace j with k in Hz by lia. rewrite (Hpre _ _ Hk) in Hz. injection Hz as <-. right. by apply Hout.
      + intros a Ha Ham. split.
        * intros j z Hj Hz. apply (Ha j z); [lia|]. by apply Hpre.
        * intros Hr2. apply (Ha k x); [lia|by apply Hpre|by apply Hin].
  Qed.

  (** What holds between the rounds. *)
  Definition rounds (i qc : nat) (q : list nat) (lev : nat -> option nat) (s : bfs) : Prop := lv i qc (Dq q qc) (Uq q qc) q lev s.


  (** :126-128 *)
  Lemma set_same_spec i qc q lev s :
    rounds i qc q lev s ->
    exists same, for_range qc (b_end s) (fun j same => x ← b_queue s !! j; wr same x true) (b_same s) = Some same /\
      lv (S i) (b_end s) (Dq q qc) (Uq q qc) q lev (mkBfs same (b_pushed s) (b_blocked s) (b_queue s) (b_end s) (b_found s)).
  Proof.
    intros H. pose proof (v_q _ _ _ _ _ _ _ H) as Hsa. pose proof Hsa as (_ & Hend & _).
    destruct (for_range_inv (fun k same => length same = n /\ forall x, node_in same x = true <->
       ((exists l, lev x = Some l /\ l < i) \/ exists j, qc <= j < k /\ q !! j = Some x)) (fun j same => x ← b_queue s !! j; wr same x true) qc (b_end s) (b_same s)) as (same & Hf & Hlen & Hsame).
    - rewrite Hend. apply (v_qc _ _ _ _ _ _ _ H).
    - split; [apply (v_same_len _ _ _ _ _ _ _ H)|]. intros x. rewrite (v_same _ _ _ _ _ _ _ H). split; [auto|].
      intros [?|(j & Hj & _)]; [done|lia].
    - intros k same Hk [Hlen Hs]. destruct (lookup_lt_is_Some_2 q k) as [x Hx]; [lia|].
      rewrite (sarr_lookup _ _ _ _ _ Hsa) by lia. rewrite Hx, bind_S.
      destruct (v_dom _ _ _ _ _ _ _ H _ _ Hx) as (l & Hl & _). destruct (v_lev _ _ _ _ _ _ _ H _ _ Hl) as (_ & Hxn & _).
      rewrite wr_Some by lia. eexists. split; [done|]. split; [by rewrite insert_length|].
      intros z. rewrite node_in_insert by lia. case_decide as Hz.
      + subst z. split; [|done]. intros _. right. exists k. split; [lia|done].
      + rewrite Hs. split; intros [?|(j & Hj & Hjz)]; auto.
        * right. exists j. split; [lia|done].
        * right. exists j. split; [|done]. destruct (decide (j = k)) as [->|]; [congruence|lia].
    - exists same. split; [done|]. destruct H. split; cbn [b_same b_pushed b_blocked b_queue b_end b_found]; try done.
      + lia.
      + intros k x Hk. destruct (v_dom0 k x Hk) as (l & Hl & H1 & H2). exists l. split; [done|]. split.
        * intros _. destruct (decide (k < qc)); [pose proof (H1 l0)|rewrite H2 by lia]; lia.
        * intros Hge. apply lookup_lt_Some in Hk. lia.
      + intros x l Hl. destruct (v_lev0 x l Hl) as (H1 & H2 & H3). split; [done|]. split; [done|lia].
      + intros x. rewrite Hsame. split.
        * intros [(l & Hl & Hlt)|(j & Hj & Hjx)]; [exists l; split; [done|lia]|].
          destruct (v_dom0 j x Hjx) as (l & Hl & _ & H2). exists l. split; [done|]. rewrite H2 by lia. lia.
        * intros (l & Hl & Hlt). destruct (decide (l < i)); [left; eauto|]. right.
          destruct (v_lev0 x l Hl) as (Hin & _ & _). apply elem_of_list_lookup in Hin as [j Hj].
          exists j. split; [|done]. destruct (v_dom0 j x Hj) as (l' & Hl' & H1 & H2). rewrite Hl in Hl'. injection Hl' as <-.
          apply lookup_lt_Some in Hj. destruct (decide (j < qc)); [specialize (H1 l0); lia|lia].
      + intros x Hx _. apply v_lev0 in Hx as (_ & _ & ?). lia.
  Qed.

  Lemma bfs_loop_spec fuel i qc q lev s :
    rounds i qc q lev s -> n <= fuel + qc ->
    exists s' q' lev' i', bfs_loop g target sat fuel qc (b_end s) s = Some s' /\ rounds i' (b_end s') q' lev' s'.
  Proof.
    revert i qc q lev s. induction fuel as [|fuel IH]; intros i qc q lev s H Hfuel; cbn [bfs_loop].
    - pose proof (v_q _ _ _ _ _ _ _ H) as Hsa. pose proof (sarr_le _ _ _ _ Hsa). pose proof Hsa as (_ & Hend & _).
      pose proof (v_qc _ _ _ _ _ _ _ H). assert (qc = b_end s) as -> by lia. rewrite Nat.eqb_refl. eauto 10.
    - destruct (qc =? b_end s) eqn:E; [apply Nat.eqb_eq in E; subst qc; eauto 10|]. apply Nat.eqb_neq in E.
      destruct (set_same_spec i qc q lev s H) as (same & Hsame & H1). rewrite Hsame, bind_S.
      pose proof (v_q _ _ _ _ _ _ _ H) as Hsa. pose proof Hsa as (_ & Hend & _). pose proof (v_qc _ _ _ _ _ _ _ H) as Hqc.
      destruct (for_range_inv (fun k s' => exists q' lev', lv (S i) (b_end s) (Dq q' k) (Uq q' k) q' lev' s' /\ q `prefix_of` q' /\ (forall z l, lev z = Some l -> lev' z = Some l))
        (bfs_node g target sat) qc (b_end s) (mkBfs same (b_pushed s) (b_blocked s) (b_queue s) (b_end s) (b_found s))) as (s' & Hf & q' & lev' & Hv & Hp & He).
      + lia.
      + exists q, lev. done.
      + intros k s1 Hk (q1 & lev1 & Hv & Hp & He).
        destruct (lookup_lt_is_Some_2 q k) as [x Hx]; [lia|].
        destruct (v_dom _ _ _ _ _ _ _ H _ _ Hx) as (l & Hl & _ & Hli). rewrite Hli in Hl by lia.
        destruct (bfs_node_spec i (b_end s) k q1 lev1 s1 x Hv (prefix_lookup _ _ _ _ Hx Hp) (He _ _ Hl)) as (s2 & q2 & lev2 & Hs & Hv2 & Hp2 & He2).
        exists s2. split; [done|]. exists q2, lev2. split; [done|]. split; [by transitivity q1|auto].
      + rewrite Hf, bind_S. apply (IH (S i) (b_end s) q' lev' s'); [exact Hv|lia].
  Qed.

  Lemma bfs_init queue (blocked : list bool) : length blocked = m -> sarr n queue (length (marked source n)) (marked source n) ->
    rounds 0 0 (marked source n) (fun x => if node_in source x then Some 0 else None)
      (mkBfs (replicate n false) (replicate n false) (replicate (length blocked) false) queue (length (marked source n)) false).
  Proof.
    intros Hb Hq. assert (forall k x, node_in (replicate k false) x = false) as Hrep.
    { intros k x. unfold node_in. destruct (replicate k false !! x) eqn:E; [|done]. by apply lookup_replicate in E as [-> _]. }
    split; cbn [b_same b_pushed b_blocked b_queue b_end b_found]; try done.
    - apply replicate_length.
    - apply replicate_length.
    - by rewrite replicate_length.
    - apply marked_NoDup.
    - lia.
    - intros k x Hk. apply elem_of_list_lookup_2, marked_in in Hk as [_ Hs]. rewrite Hs. exists 0. split; [done|]. split; [lia|done].
    - intros x l Hl. destruct (node_in source x) eqn:E; [|done]. injection Hl as <-. pose proof (node_in_lt _ _ E). rewrite marked_in. split; [split; [lia|done]|]. lia.
    - intros x. rewrite Hrep. split; [done|]. intros (l & _ & ?). lia.
    - intros x. by rewrite Hrep.
    - intros x _ ?. lia.
    - intros x. destruct (node_in source x); split; done.
    - intros x l Hl. destruct (node_in source x) eqn:E; [|done]. by apply Hdis.
    - intros a x y (j & z & Hj & _). lia.
    - intros y l Hl. by destruct (node_in source y).
  Qed.

  (** The result: levels of the nodes that can be reached. *)
  Record levels (lev : nat -> option nat) (blocked : list bool) (found : bool) : Prop := {
    l_len : length blocked = m;
    l_lt : forall x l, lev x = Some l -> x < n;
    l_source : forall x, lev x = Some 0 <-> node_in source x = true;
    l_target : forall x l, lev x = Some l -> node_in target x = false;
    l_arc : forall a x y, fr_tail g !! a = Some x -> fr_head g !! a = Some y -> is_Some (lev x) -> arc_done lev blocked found a x y;
    l_pred : forall y l, lev y = Some (S l) -> exists a x, fr_tail g !! a = Some x /\ fr_head g !! a = Some y /\ lev x = Some l /\ node_in sat a = false;
    l_found : found = true -> exists a x y l, fr_tail g !! a = Some x /\ fr_head g !! a = Some y /\ lev x = Some l /\ node_in sat a = false /\ node_in target y = true }.

  Lemma compute_blocking_flow_spec (blocked : list bool) : length blocked = m ->
    exists found blocked' lev, compute_blocking_flow g source target sat blocked = Some (found, blocked') /\ levels lev blocked' found.
  Proof.
    intros Hb. unfold compute_blocking_flow.
    destruct (collect_spec g source Hsrc) as (queue & Hc & Hq). rewrite Hc, bind_S.
    destruct (bfs_loop_spec n 0 0 _ _ _ (bfs_init queue blocked Hb Hq) ltac:(lia)) as (s' & q' & lev' & i' & Hl & H).
    cbn [b_end] in Hl. rewrite Hl, bind_S. exists (b_found s'), (b_blocked s'), lev'. split; [done|].
    destruct H. split; try done.
    - intros x l Hx. by apply v_lev0 in Hx as (_ & ? & _).
    - intros a x y Hx Hy [l Hlx]. apply v_done0; [|done..]. destruct (v_lev0 _ _ Hlx) as (Hin & _). apply elem_of_list_lookup in Hin as [j Hj].
      exists j, x. split; [|done]. destruct v_q0 as (_ & -> & _). by apply lookup_lt_Some in Hj.
  Qed.
End Bfs.
