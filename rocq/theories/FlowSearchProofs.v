(** The searches of get_source_cut, get_target_cut and get_balanced_cut (src/nested_dissection.cpp:214-345): what they mark is
    closed under the arcs they follow, and nothing else is marked. *)
From Verif Require Import Base UtilSpec GraphSpec FlowModel FlowSpec FlowArray FlowNetProofs.

Ltac Zify.zify_post_hook ::= idtac.

Lemma marked_insert (S : list bool) y k : y < length S -> y < k -> node_in S y = false -> marked (<[y:=true]> S) k ≡ₚ marked S k ++ [y].
Proof.
  intros Hl Hk Hy. apply NoDup_Permutation; [apply marked_NoDup| |].
  - apply nodup_snoc; [apply marked_NoDup|]. rewrite marked_in. intros [_ ?]. congruence.
  - intros x. rewrite elem_of_app, elem_of_list_singleton, !marked_in, node_in_insert by done. case_decide as Hx.
    + subst. split; auto.
    + split; [intros [? ?]; auto|]. intros [?|?]; [done|congruence].
Qed.

Lemma marked_count (S : list bool) : count_occ Bool.bool_dec S true = length (marked S (length S)).
Proof.
  induction S as [|b S IH] using rev_ind; [done|]. rewrite count_occ_app, app_length. change (length [b]) with 1.
  rewrite marked_S, app_length, IH. f_equal.
  - unfold marked. apply (filter_len_ext (node_in S) (node_in (S ++ [b]))). intros x Hx. apply elem_of_seq in Hx. unfold node_in. rewrite lookup_app_l by lia. done.
  - unfold node_in. rewrite lookup_app_r by lia. rewrite Nat.sub_diag. by destruct b.
Qed.

Section Search.
  Context (g : fragment) (Hok : fragment_ok g).
  Notation n := (fr_nodes g).
  Notation m := (fr_arcs g).
  Context (free : nat -> option bool) (fr : nat -> bool) (Hfr : forall a, a < m -> free a = Some (fr a)).

  Definition closed (P : nat -> Prop) : Prop := forall a x y, fr_tail g !! a = Some x -> fr_head g !! a = Some y -> fr a = true -> P x -> P y.

  Context (R : nat -> Prop) (HR : closed R).

  (** [q]: the stack, [dn]: nodes that were taken from it, [D]: arcs that were looked at. *)
  Record search (D : nat -> Prop) (dn q stack : list nat) (e : nat) (side : list bool) : Prop := {
    s_stack : sarr n stack e q;
    s_side : length side = n;
    s_perm : marked side n ≡ₚ dn ++ q;
    s_R : forall x, node_in side x = true -> R x;
    s_done : forall a x y, D a -> fr_tail g !! a = Some x -> fr_head g !! a = Some y -> fr a = true -> node_in side y = true }.

  Lemma search_mem D dn q stack e side x : search D dn q stack e side -> node_in side x = true <-> x ∈ dn ++ q.
  Proof.
    intros H. rewrite <- (s_perm _ _ _ _ _ _ H), marked_in. split; [|tauto]. intros Hx. split; [|done].
    apply node_in_lt in Hx. by rewrite (s_side _ _ _ _ _ _ H) in Hx.
  Qed.
  Lemma search_nodup D dn q stack e side : search D dn q stack e side -> NoDup (dn ++ q).
  Proof. intros H. rewrite <- (s_perm _ _ _ _ _ _ H). apply marked_NoDup. Qed.
  Lemma search_len D dn q stack e side : search D dn q stack e side -> length dn + length q = length (marked side n).
  Proof. intros H. by rewrite (s_perm _ _ _ _ _ _ H), app_length. Qed.

  Lemma search_push D dn q stack e side y : search D dn q stack e side -> y < n -> node_in side y = false -> R y ->
    exists stack', wr stack e y = Some stack' /\ wr side y true = Some (<[y:=true]> side) /\ search D dn (q ++ [y]) stack' (e + 1) (<[y:=true]> side).
  Proof.
    intros H Hy Hs HRy. pose proof (s_side _ _ _ _ _ _ H) as Hsl.
    pose proof (marked_insert side y n ltac:(lia) Hy Hs) as Hp.
    assert (length q < n) as Hq.
    { pose proof (marked_len (<[y:=true]> side) n) as Hl. rewrite Hp, app_length in Hl. cbn in Hl. rewrite <- (search_len _ _ _ _ _ _ H) in Hl. lia. }
    destruct (sarr_push _ _ _ _ y (s_stack _ _ _ _ _ _ H) Hq) as (stack' & Hw & Hsa). exists stack'. split; [done|].
    split; [by rewrite wr_Some by lia|]. split.
    - done.
    - by rewrite insert_length.
    - rewrite Hp, (s_perm _ _ _ _ _ _ H). by rewrite app_assoc.
    - intros x. rewrite node_in_insert by lia. case_decide; [by subst|]. apply (s_R _ _ _ _ _ _ H).
    - intros a x z Ha Hx Hz Hf. rewrite node_in_insert by lia. case_decide; [done|]. by eapply (s_done _ _ _ _ _ _ H).
  Qed.

  Lemma search_ext (D D' : nat -> Prop) dn q stack e side : search D dn q stack e side -> (forall a, D' a -> a < m -> D a \/ fr a = false \/ (forall y, fr_head g !! a = Some y -> node_in side y = true)) -> search D' dn q stack e side.
  Proof.
    intros H HD. destruct H. split; try done. intros a x y Ha Hx Hy Hf. destruct (frag_tail_lt g Hok _ _ Hx) as [Ham _].
    destruct (HD a Ha Ham) as [Hd|[Hd|Hd]]; [by eapply s_done0|congruence|by apply Hd].
  Qed.

  (** The arcs that leave the nodes of [dn]. *)
  Definition of_nodes (dn : list nat) (a : nat) : Prop := exists x, fr_tail g !! a = Some x /\ x ∈ dn.

  (** :234-243 *)
  Lemma side_arc_spec D dn q stack e side count a x : search D dn q stack e side -> count = length (marked side n) -> fr_tail g !! a = Some x -> x ∈ dn ->
    exists stack' e' side' q', side_arc g free a (stack, e, side, count) = Some (stack', e', side', length (marked side' n)) /\
      search (fun b => D b \/ b = a) dn q' stack' e' side' /\ (forall z, node_in side z = true -> node_in side' z = true).
  Proof.
    intros H -> Ha Hx. destruct (frag_tail_lt g Hok _ _ Ha) as [Ham _]. destruct (frag_head g Hok a Ham) as (y & Hy & Hyn).
    unfold side_arc. rewrite (Hfr a Ham), bind_S. destruct (fr a) eqn:Ef.
    - rewrite Hy, bind_S. rewrite (lk_bool side n y (s_side _ _ _ _ _ _ H) Hyn), bind_S. destruct (node_in side y) eqn:Es.
      + eexists _, _, _, _. split; [done|]. split; [|done]. eapply search_ext; [exact H|]. intros b [Hb| ->] _; [auto|]. right. right. intros y' Hy'. congruence.
      + destruct (search_push D dn q stack e side y H Hyn Es) as (stack' & Hw1 & Hw2 & H').
        { eapply HR; [exact Ha|exact Hy|done|]. apply (s_R _ _ _ _ _ _ H). eapply search_mem; [exact H|]. apply elem_of_app. by left. }
        rewrite Hw1, bind_S, Hw2, bind_S. eexists _, _, _, _. split.
        { rewrite (marked_insert side y n) by (rewrite ?(s_side _ _ _ _ _ _ H); done). rewrite app_length. done. }
        split.
        * eapply search_ext; [exact H'|]. intros b [Hb| ->] _; [auto|]. right. right. intros y' Hy'. rewrite Hy in Hy'. injection Hy' as <-.
          rewrite node_in_insert by (rewrite (s_side _ _ _ _ _ _ H); done). by rewrite decide_True.
        * intros z Hz. rewrite node_in_insert by (rewrite (s_side _ _ _ _ _ _ H); done). by case_decide.
    - eexists _, _, _, _. split; [done|]. split; [|done]. eapply search_ext; [exact H|]. intros b [Hb| ->] _; [auto|]. right. by left.
  Qed.

  (** Taking a node from the stack. *)
  Lemma search_pop D dn q x stack e side : search D dn (q ++ [x]) stack e side ->
    0 < e /\ stack !! (e - 1) = Some x /\ x < n /\ x ∉ dn /\ search D (dn ++ [x]) q stack (e - 1) side.
  Proof.
    intros H. destruct (sarr_pop _ _ _ _ _ (s_stack _ _ _ _ _ _ H)) as (H1 & H2 & H3). split; [done|]. split; [done|].
    assert (node_in side x = true) as Hx.
    { eapply search_mem; [exact H|]. apply elem_of_app. right. apply elem_of_app. right. by apply elem_of_list_singleton. }
    split; [apply node_in_lt in Hx; by rewrite (s_side _ _ _ _ _ _ H) in Hx|]. split.
    - pose proof (search_nodup _ _ _ _ _ _ H) as Hnd. rewrite NoDup_app in Hnd. destruct Hnd as (_ & Hnd & _).
      intros Hin. apply (Hnd x Hin). apply elem_of_app. right. by apply elem_of_list_singleton.
    - destruct H. split; try done. rewrite s_perm0. rewrite <- app_assoc. apply Permutation_app_head. apply Permutation_app_comm.
  Qed.

  (** :232-245 *)
  Lemma side_loop_spec fuel dn q stack e side : search (of_nodes dn) dn q stack e side -> n <= fuel + length dn ->
    exists side', side_loop g free fuel (stack, e, side, length (marked side n)) = Some (side', length (marked side' n)) /\ length side' = n /\
      (forall x, node_in side x = true -> node_in side' x = true) /\ (forall x, node_in side' x = true -> R x) /\ closed (fun x => node_in side' x = true).
  Proof.
    revert dn q stack e side. induction fuel as [|fuel IH]; intros dn q stack e side H Hfuel.
    - pose proof (search_len _ _ _ _ _ _ H) as Hl. pose proof (marked_len side n). destruct (s_stack _ _ _ _ _ _ H) as (_ & He & _).
      assert (q = []) as -> by (destruct q; [done|cbn in Hl; lia]). cbn in He. subst e. cbn [side_loop]. rewrite Nat.eqb_refl.
      exists side. split; [done|]. split; [apply (s_side _ _ _ _ _ _ H)|]. split; [done|]. split; [apply (s_R _ _ _ _ _ _ H)|].
      intros a x y Hx Hy Hf Hm. eapply (s_done _ _ _ _ _ _ H); [|exact Hx|exact Hy|done]. exists x. split; [done|].
      eapply search_mem in Hm; [|exact H]. by rewrite app_nil_r in Hm.
    - cbn [side_loop]. destruct (s_stack _ _ _ _ _ _ H) as (_ & He & _). destruct (e =? 0) eqn:E0.
      + apply Nat.eqb_eq in E0. assert (q = []) as -> by (destruct q; [done|cbn in He; lia]).
        exists side. split; [done|]. split; [apply (s_side _ _ _ _ _ _ H)|]. split; [done|]. split; [apply (s_R _ _ _ _ _ _ H)|].
        intros a x y Hx Hy Hf Hm. eapply (s_done _ _ _ _ _ _ H); [|exact Hx|exact Hy|done]. exists x. split; [done|].
        eapply search_mem in Hm; [|exact H]. by rewrite app_nil_r in Hm.
      + apply Nat.eqb_neq in E0. destruct q as [|x q _] using rev_ind; [cbn in He; lia|].
        destruct (search_pop _ _ _ _ _ _ _ H) as (_ & Hx & Hxn & Hxd & H1). rewrite Hx, bind_S.
        destruct (frag_range g Hok x Hxn) as (lo & hi & Hlo & Hhi & Hr & Hin & Hout). rewrite Hlo, bind_S, Hhi, bind_S.
        destruct (for_range_inv (fun k '(stack', e', side', count') => count' = length (marked side' n) /\ (forall z, node_in side z = true -> node_in side' z = true) /\
          exists q', search (fun b => of_nodes dn b \/ lo <= b < k) (dn ++ [x]) q' stack' e' side') (side_arc g free) lo hi (stack, e - 1, side, length (marked side n)))
          as ([[[stack' e'] side'] count'] & Hf & -> & Hmono & q' & H2).
        * lia.
        * split; [done|]. split; [done|]. exists q. eapply search_ext; [exact H1|]. intros a [Ha|Ha] _; [auto|lia].
        * intros a [[[stack' e'] side'] count'] Ha (-> & Hmono & q' & H2).
          destruct (side_arc_spec _ _ _ _ _ _ _ a x H2 eq_refl (Hin a Ha)) as (stack2 & e2 & side2 & q2 & Hs & H3 & Hmono2).
          { apply elem_of_app. right. by apply elem_of_list_singleton. }
          rewrite Hs. eexists. split; [done|]. cbn. split; [done|]. split; [auto|]. exists q2. eapply search_ext; [exact H3|].
          intros b [Hb|Hb] _; [auto|]. left. destruct (decide (b = a)); [auto|]. left. right. lia.
        * rewrite Hf, bind_S. destruct (IH (dn ++ [x]) q' stack' e' side') as (side2 & Hs & Hl & Hm & HR2 & Hc).
          -- eapply search_ext; [exact H2|]. intros a (z & Hz & Hzd) _. left. apply elem_of_app in Hzd as [Hzd|Hzd]; [left; by exists z|].
             apply elem_of_list_singleton in Hzd as ->. right. by apply Hout.
          -- rewrite app_length. cbn. lia.
          -- exists side2. split; [done|]. split; [done|]. split; [auto|done].
  Qed.

  (** :217-230 *)
  Lemma side_start_spec (mark : list bool) : length mark = n -> (forall x, node_in mark x = true -> R x) ->
    exists stack side, side_start g mark = Some (stack, length (marked mark n), side, length (marked side n)) /\
      (forall x, node_in mark x = true -> node_in side x = true) /\
      search (of_nodes []) [] (marked mark n) stack (length (marked mark n)) side.
  Proof.
    intros Hm HRm. unfold side_start.
    match goal with |- context [for_range 0 n ?body ?init] =>
      destruct (for_range_inv (fun k '(stack, e, side, count) => count = length (marked side n) /\ (forall x, node_in side x = true <-> x < k /\ node_in mark x = true) /\
        e = length (marked mark k) /\ search (of_nodes []) [] (marked mark k) stack e side) body 0 n init) as ([[[stack e] side] count] & Hr & -> & Hs & -> & H) end.
    - lia.
    - assert (forall x, node_in (replicate n false) x = false) as Hrep.
      { intros x. unfold node_in. destruct (replicate n false !! x) eqn:E; [|done]. by apply lookup_replicate in E as [-> _]. }
      assert (marked (replicate n false) n = []) as Hnil.
      { destruct (marked (replicate n false) n) as [|z l] eqn:E; [done|]. assert (z ∈ marked (replicate n false) n) as Hz by (rewrite E; constructor).
        apply marked_in in Hz as [_ Hz]. by rewrite Hrep in Hz. }
      split; [by rewrite Hnil|]. split; [intros x; rewrite Hrep; split; [done|lia]|]. split; [done|]. split.
      + apply sarr_init.
      + apply replicate_length.
      + by rewrite Hnil.
      + intros x. by rewrite Hrep.
      + intros a x y (z & _ & Hz). by apply elem_of_nil in Hz.
    - intros k [[[stack e] side] count] Hk (-> & Hs & -> & H). rewrite (lk_bool mark n k Hm ltac:(lia)), bind_S.
      pose proof (marked_S mark k) as HmS. rewrite Nat.add_1_r in HmS. destruct (node_in mark k) eqn:Ek.
      + assert (node_in side k = false) as Hks by (destruct (node_in side k) eqn:E; [|done]; apply Hs in E; lia).
        destruct (search_push _ _ _ _ _ _ k H ltac:(lia) Hks (HRm k Ek)) as (stack' & Hw1 & Hw2 & H').
        rewrite Hw1, bind_S, Hw2, bind_S. eexists. split; [done|]. cbv beta iota. rewrite HmS. split; [|split; [|split]].
        * rewrite (marked_insert side k n) by (rewrite ?(s_side _ _ _ _ _ _ H); lia || done). by rewrite app_length.
        * intros x. rewrite node_in_insert by (rewrite (s_side _ _ _ _ _ _ H); lia). case_decide as Hx.
          -- subst. split; [|done]. intros _. split; [lia|done].
          -- rewrite Hs. split; intros [? ?]; (split; [lia|done]).
        * rewrite app_length. cbn. lia.
        * done.
      + eexists. split; [done|]. cbv beta iota. rewrite HmS, app_nil_r. split; [done|]. split; [|done]. intros x. rewrite Hs. split; intros [? ?]; (split; [|done]); [lia|].
        destruct (decide (x = k)) as [->|]; [congruence|lia].
    - rewrite Hr. exists stack, side. split; [done|]. split; [|done]. intros x Hx. apply Hs. split; [|done]. apply node_in_lt in Hx. lia.
  Qed.

  Theorem side_search (mark : list bool) : length mark = n -> (forall x, node_in mark x = true -> R x) ->
    exists s side, side_start g mark = Some s /\ side_loop g free n s = Some (side, length (marked side n)) /\ length side = n /\
      (forall x, node_in mark x = true -> node_in side x = true) /\ (forall x, node_in side x = true -> R x) /\ closed (fun x => node_in side x = true).
  Proof.
    intros Hm HRm. destruct (side_start_spec mark Hm HRm) as (stack & side0 & Hs & Hsub & H).
    destruct (side_loop_spec n [] _ _ _ _ H ltac:(lia)) as (side & Hl & Hlen & Hmono & HR2 & Hc).
    eexists _, side. split; [done|]. split; [done|]. split; [done|]. split; [auto|done].
  Qed.

  (** The sides of get_balanced_cut. [A]: arcs whose heads were put into the piercing array. *)
  Record half_ok (dn : list nat) (A : list nat) (h : half) : Prop := {
    h_count_ok : h_count h = length dn;
    h_nodup : NoDup A;
    h_arcs : forall a, a ∈ A -> of_nodes dn a;
    h_le : h_pend h <= length A;
    h_arr : exists l, sarr m (h_pierce h) (h_pend h) l /\ forall y, y ∈ l -> y < n }.

  Lemma half_lt dn A h a : half_ok dn A h -> a < m -> a ∉ A -> h_pend h < m.
  Proof.
    intros H Ham Ha. assert (length (A ++ [a]) <= m) as Hl.
    { apply nodup_lt_len; [apply nodup_snoc; [apply (h_nodup _ _ _ H)|done]|]. intros b Hb. apply elem_of_app in Hb as [Hb|Hb].
      - destruct (h_arcs _ _ _ H b Hb) as (z & Hz & _). by apply lookup_lt_Some in Hz.
      - apply elem_of_list_singleton in Hb. by subst. }
    rewrite app_length in Hl. cbn in Hl. pose proof (h_le _ _ _ H). lia.
  Qed.

  (** :311-322 *)
  Lemma enlarge_arc_spec D dn A q stack e h a x : search D dn q stack e (h_side h) -> half_ok dn A h -> fr_tail g !! a = Some x -> x ∈ dn -> a ∉ A ->
    exists stack' e' h' q' A', enlarge_arc g free a (stack, e, h) = Some (stack', e', h') /\
      search (fun b => D b \/ b = a) dn q' stack' e' (h_side h') /\ half_ok dn A' h' /\ (forall b, b ∈ A' -> b ∈ A \/ b = a) /\
      (forall z, node_in (h_side h) z = true -> node_in (h_side h') z = true).
  Proof.
    intros H Hh Ha Hx HaA. destruct (frag_tail_lt g Hok _ _ Ha) as [Ham _]. destruct (frag_head g Hok a Ham) as (y & Hy & Hyn).
    unfold enlarge_arc. rewrite Hy, bind_S, (Hfr a Ham), bind_S. destruct (fr a) eqn:Ef; cbn [negb].
    - rewrite (lk_bool (h_side h) n y (s_side _ _ _ _ _ _ H) Hyn), bind_S. destruct (node_in (h_side h) y) eqn:Es.
      + eexists _, _, _, q, A. split; [done|]. split; [|auto]. eapply search_ext; [exact H|]. intros b [Hb| ->] _; [auto|]. right. right. intros y' Hy'. congruence.
      + destruct (search_push D dn q stack e (h_side h) y H Hyn Es) as (stack' & Hw1 & Hw2 & H').
        { eapply HR; [exact Ha|exact Hy|done|]. apply (s_R _ _ _ _ _ _ H). eapply search_mem; [exact H|]. apply elem_of_app. by left. }
        rewrite Hw2, bind_S, Hw1, bind_S. eexists _, _, _, _, A. split; [done|]. cbn [h_side]. split; [|split; [|split; [auto|]]].
        * eapply search_ext; [exact H'|]. intros b [Hb| ->] _; [auto|]. right. right. intros y' Hy'. rewrite Hy in Hy'. injection Hy' as <-.
          rewrite node_in_insert by (rewrite (s_side _ _ _ _ _ _ H); done). by rewrite decide_True.
        * destruct Hh. split; done.
        * intros z Hz. rewrite node_in_insert by (rewrite (s_side _ _ _ _ _ _ H); done). by case_decide.
    - pose proof (half_lt _ _ _ a Hh Ham HaA) as Hlt. destruct (h_arr _ _ _ Hh) as (l & Hl & Hln). pose proof Hl as (_ & Hll & _).
      destruct (sarr_push _ _ _ _ y Hl ltac:(lia)) as (pierce & Hw & Hl'). rewrite Hw, bind_S.
      eexists _, _, _, q, (A ++ [a]). split; [done|]. cbn [h_side]. split; [|split; [|split; [|done]]].
      + eapply search_ext; [exact H|]. intros b [Hb| ->] _; [auto|]. right. by left.
      + destruct Hh. split; cbn [h_count h_pend h_pierce].
        * done.
        * by apply nodup_snoc.
        * intros b Hb. apply elem_of_app in Hb as [Hb|Hb]; [by apply h_arcs0|]. apply elem_of_list_singleton in Hb as ->. by exists x.
        * rewrite app_length. cbn. lia.
        * exists (l ++ [y]). split; [done|]. intros z Hz. apply elem_of_app in Hz as [Hz|Hz]; [by apply Hln|]. apply elem_of_list_singleton in Hz as ->. done.
      + intros b Hb. apply elem_of_app in Hb as [Hb|Hb]; [auto|]. apply elem_of_list_singleton in Hb as ->. auto.
  Qed.

  (** :307-325 *)
  Lemma enlarge_spec asserts fuel dn A q stack e h : search (of_nodes dn) dn q stack e (h_side h) -> half_ok dn A h -> n <= fuel + length dn ->
    exists stack' h' dn' A', enlarge g asserts free fuel (stack, e, h) = Some (stack', h') /\ length stack' = n /\ search (of_nodes dn') dn' [] stack' 0 (h_side h') /\ half_ok dn' A' h' /\
      (forall x, node_in (h_side h) x = true -> node_in (h_side h') x = true).
  Proof.
    assert (forall fuel dn A stack e h, search (of_nodes dn) dn [] stack e (h_side h) -> half_ok dn A h ->
      exists stack' h' dn' A', enlarge g asserts free fuel (stack, e, h) = Some (stack', h') /\ length stack' = n /\ search (of_nodes dn') dn' [] stack' 0 (h_side h') /\ half_ok dn' A' h' /\
      (forall x, node_in (h_side h) x = true -> node_in (h_side h') x = true)) as Hend.
    { clear fuel dn A q stack e h. intros fuel dn A stack e h H Hh. destruct (s_stack _ _ _ _ _ _ H) as (Hl & He & _). cbn in He. subst e.
      exists stack, h, dn, A. split; [|done].
      assert (h_count h = count_occ Bool.bool_dec (h_side h) true) as Hc.
      { rewrite marked_count, (s_side _ _ _ _ _ _ H), <- (search_len _ _ _ _ _ _ H), (h_count_ok _ _ _ Hh). cbn. lia. }
      destruct fuel; cbn [enlarge]; rewrite Nat.eqb_refl; rewrite (proj2 (Nat.eqb_eq _ _) Hc); by destruct asserts. }
    revert dn A q stack e h. induction fuel as [|fuel IH]; intros dn A q stack e h H Hh Hfuel.
    - pose proof (search_len _ _ _ _ _ _ H) as Hl. pose proof (marked_len (h_side h) n).
      assert (q = []) as -> by (destruct q; [done|cbn in Hl; lia]). by eapply Hend.
    - destruct q as [|x q _] using rev_ind; [by eapply Hend|]. cbn [enlarge].
      destruct (search_pop _ _ _ _ _ _ _ H) as (He & Hx & Hxn & Hxd & H1).
      destruct (e =? 0) eqn:E0; [apply Nat.eqb_eq in E0; lia|]. rewrite Hx, bind_S.
      destruct (frag_range g Hok x Hxn) as (lo & hi & Hlo & Hhi & Hr & Hin & Hout). rewrite Hlo, bind_S, Hhi, bind_S.
      destruct (for_range_inv (fun k '(stack', e', h') => (forall z, node_in (h_side h) z = true -> node_in (h_side h') z = true) /\
        exists q' A', search (fun b => of_nodes dn b \/ lo <= b < k) (dn ++ [x]) q' stack' e' (h_side h') /\ half_ok (dn ++ [x]) A' h' /\ (forall b, b ∈ A' -> b ∈ A \/ lo <= b < k))
        (enlarge_arc g free) lo hi (stack, e - 1, mkHalf (h_side h) (h_count h + 1) (h_pierce h) (h_pend h)))
        as ([[stack' e'] h'] & Hf & Hmono & q' & A' & H2 & Hh2 & _).
      + lia.
      + split; [done|]. exists q, A. cbn [h_side]. split; [|split; [|auto]].
        * eapply search_ext; [exact H1|]. intros a [Ha|Ha] _; [auto|lia].
        * destruct Hh. split; cbn [h_count h_pend h_pierce]; try done.
          -- rewrite app_length. cbn. lia.
          -- intros a Ha. destruct (h_arcs0 a Ha) as (z & Hz & Hzd). exists z. split; [done|]. apply elem_of_app. by left.
      + intros a [[stack' e'] h'] Ha (Hmono & q' & A' & H2 & Hh2 & HA').
        destruct (enlarge_arc_spec _ _ A' _ _ _ _ a x H2 Hh2 (Hin a Ha)) as (stack2 & e2 & h2 & q2 & A2 & Hs & H3 & Hh3 & HA2 & Hmono2).
        { apply elem_of_app. right. by apply elem_of_list_singleton. }
        { intros HaA. apply HA' in HaA as [HaA|HaA]; [|lia]. destruct (h_arcs _ _ _ Hh a HaA) as (z & Hz & Hzd). rewrite (Hin a Ha) in Hz. injection Hz as <-. done. }
        rewrite Hs. eexists. split; [done|]. cbn. split; [auto|]. exists q2, A2. split; [|split; [done|]].
        * eapply search_ext; [exact H3|]. intros b [Hb|Hb] _; [auto|]. left. destruct (decide (b = a)); [auto|]. left. right. lia.
        * intros b Hb. apply HA2 in Hb as [Hb| ->]; [|right; lia]. apply HA' in Hb as [?|?]; [auto|]. right. lia.
      + rewrite Hf, bind_S. destruct (IH (dn ++ [x]) A' q' stack' e' h') as (stack2 & h2 & dn2 & A2 & Hs & Hl & H3 & Hh3 & Hm).
        * eapply search_ext; [exact H2|]. intros a (z & Hz & Hzd) _. left. apply elem_of_app in Hzd as [Hzd|Hzd]; [left; by exists z|].
          apply elem_of_list_singleton in Hzd as ->. right. by apply Hout.
        * done.
        * rewrite app_length. cbn. lia.
        * exists stack2, h2, dn2, A2. split; [done|]. split; [done|]. split; [done|]. split; [done|]. auto.
  Qed.
End Search.
