(** CCH queries: pinned targets and resets. *)
From Verif Require Import Base GraphSpec PathSpec WalkSpec CchModel CchSpec CchCustomizeProofs CchQueryProofs.
Ltac Zify.zify_post_hook ::= idtac.

Lemma all_inf n t : length t = n -> (forall y, tv t y = inf_weight) -> t = replicate n inf_weight.
Proof.
  intros Hl H. symmetry. apply replicate_as_Forall. split; [done|]. apply Forall_lookup. intros y x Hy.
  specialize (H y). by rewrite (tv_lookup _ _ _ Hy) in H.
Qed.
Lemma tv_replicate n y : tv (replicate n inf_weight) y = inf_weight.
Proof.
  unfold tv. destruct (replicate n inf_weight !! y) as [x|] eqn:E; [|done]. by apply lookup_replicate in E as [-> _].
Qed.

Lemma elem_of_concat {A} (x : A) ls : x ∈ concat ls <-> exists k, k ∈ ls /\ x ∈ k.
Proof. rewrite elem_of_list_In, in_concat. by setoid_rewrite elem_of_list_In. Qed.

Section Pin.
  Context (n : nat) (rt rh : list nat) (c : cch) (WF : wf_cch n rt rh c).
  Let parent := c_parent c.
  Let Hplen : length parent = n := wf_plen _ _ _ _ WF.
  Let Hpar := wf_parent _ _ _ _ WF.

  (** ** Resetting *)
  Lemma for_range_segs {St} s l (f : nat -> St -> option St) st :
    side_ok n parent s l ->
    exists l', (forall x, x ∈ l' <-> x ∈ l) /\
    for_range 0 (length (nodes s)) (fun i st =>
      x ← nodes s !! i; e ← ends s !! i;
      forall_ancestors (c_parent c) (fun x st => st ← f x st; Some (st, true)) (length (c_parent c)) (Some x) e st) st
    = for_each l' f st.
  Proof.
    intros H. destruct (so_segs _ _ _ _ H) as (segs & Hn & He & Hc & Hl). pose proof (so_ord _ _ _ _ H) as Hord.
    exists (concat (snd <$> segs)). split.
    { intros x. rewrite Hl, !elem_of_concat. split; intros (k & Hk & Hx); exists k; (split; [|done]);
        [by apply elem_of_reverse|by rewrite elem_of_reverse in Hk]. }
    unfold for_range. rewrite Nat.sub_0_r.
    assert (forall cnt i st, i + cnt = length segs ->
      for_n cnt i (fun i st => x ← nodes s !! i; e ← ends s !! i;
        forall_ancestors (c_parent c) (fun x st => st ← f x st; Some (st, true)) (length (c_parent c)) (Some x) e st) st
      = for_each (concat (snd <$> drop i segs)) f st) as Hgen.
    { induction cnt as [|cnt IH]; intros i st0 Hcnt; cbn [for_n].
      - rewrite drop_ge by lia. done.
      - destruct (lookup_lt_is_Some_2 segs i) as [[[x e] k] Hg]; [lia|].
        assert (nodes s !! i = Some x) as -> by (by rewrite Hn, !list_lookup_fmap, Hg). bs.
        assert (ends s !! i = Some e) as -> by (by rewrite He, !list_lookup_fmap, Hg). bs.
        rewrite (drop_S _ _ _ Hg). cbn [fmap list_fmap snd concat]. rewrite for_each_app.
        eapply Forall_lookup_1 in Hc as [Hc Hx]; [|exact Hg]. cbn in Hc, Hx.
        rewrite (forall_ancestors_chain _ _ _ _ k) by (first [done|eapply (seg_fuel _ _ _ _ WF); [done|by eapply (ord_lt _ _ _ _ WF)]]).
        destruct (for_each k f st0) as [st1|]; [|done]. bs. apply IH. lia. }
    rewrite Hgen; [done|]. by rewrite Hn, !fmap_length.
  Qed.

  Lemma reset_source_list_spec s l :
    side_ok n parent s l ->
    exists t, reset_source_list c s = Some (mkSide t (pr s) (replicate n false) [] []) /\ length t = n /\
      (forall y, y ∈ l -> tv t y = inf_weight) /\ (forall y, y ∉ l -> tv t y = tv (td s) y).
  Proof.
    intros H. unfold reset_source_list.
    destruct (for_range_segs s l (fun x '(t, ins) => ins ← wr ins x false; t ← wr t x inf_weight; Some (t, ins)) (td s, insp s) H)
      as (l' & Hl' & Hrun).
    match goal with |- context [for_range 0 ?k ?body ?st] =>
      assert (for_range 0 k body st = for_each l' (fun x '(t, ins) => ins ← wr ins x false; t ← wr t x inf_weight; Some (t, ins)) st) as -> end.
    { rewrite <- Hrun. unfold for_range. generalize (length (nodes s) - 0). intros cnt. generalize 0, (td s, insp s).
      induction cnt as [|cnt IH]; intros i st; [done|]. cbn [for_n].
      destruct (nodes s !! i) as [x|]; [|done]. bs. destruct (ends s !! i) as [e|]; [|done]. bs.
      assert (forall fuel x e st, forall_ancestors (c_parent c) (fun x '(t, ins) => ins ← wr ins x false; t ← wr t x inf_weight; Some (t, ins, true)) fuel x e st
        = forall_ancestors (c_parent c) (fun x st => st ← (let '(t, ins) := st in ins ← wr ins x false; t ← wr t x inf_weight; Some (t, ins)); Some (st, true)) fuel x e st) as Heq.
      { clear. induction fuel as [|fuel IH]; intros x e [t ins]; cbn [forall_ancestors]; [done|]. case_decide; [done|].
        destruct x as [x|]; [|done]. bs. destruct (c_parent c !! x) as [p|]; [|done]. bs.
        destruct (wr ins x false); [|done]. bs. destruct (wr t x inf_weight); [|done]. bs. apply IH. }
      rewrite Heq. destruct (forall_ancestors _ _ _ _ _ _) as [st'|]; [|done]. bs. apply IH. }
    destruct (for_each_inv (fun pre '(t, ins) => length t = n /\ length ins = n /\
        (forall y, y ∈ pre -> tv t y = inf_weight /\ ins !! y = Some false) /\
        (forall y, y ∉ pre -> tv t y = tv (td s) y /\ ins !! y = insp s !! y))
      (fun x '(t, ins) => ins ← wr ins x false; t ← wr t x inf_weight; Some (t, ins)) l' (td s, insp s))
      as ([t ins] & Hf & Hlt & Hli & Hin & Hout).
    - split; [apply H|]. split; [apply H|]. split; [by intros y ?%elem_of_nil|done].
    - intros pre x post [t ins] Hl (Hlt & Hli & Hin & Hout).
      assert (x < n) as Hx.
      { eapply (ord_lt _ _ _ _ WF); [apply H|]. apply Hl'. rewrite Hl. apply elem_of_app. right. constructor. }
      rewrite wr_Some by lia. bs. rewrite wr_Some by lia. bs. eexists. split; [done|]. cbv beta iota. rewrite !insert_length.
      split; [done|]. split; [done|]. split.
      + intros y Hy. rewrite tv_insert by lia. destruct (decide (x = y)) as [Hxy|Hne].
        * rewrite <- Hxy. split; [done|]. apply list_lookup_insert; lia.
        * rewrite list_lookup_insert_ne by done. apply Hin. apply elem_of_app in Hy as [?|Hy%elem_of_list_singleton]; [done|congruence].
      + intros y Hy. rewrite not_elem_of_app in Hy. destruct Hy as [Hy Hxy]. apply not_elem_of_cons in Hxy as [Hxy _].
        rewrite tv_insert by lia. rewrite decide_False by done. rewrite list_lookup_insert_ne by done. by apply Hout.
    - rewrite Hf. bs. cbv iota. exists t. assert (ins = replicate n false) as ->.
      { symmetry. apply replicate_as_Forall. split; [done|]. apply Forall_lookup. intros y b Hb.
        destruct (decide (y ∈ l')) as [Hy|Hy].
        - destruct (Hin y Hy). congruence.
        - destruct (Hout y Hy) as [_ Hi]. rewrite Hi in Hb. destruct b; [|done].
          exfalso. apply Hy, Hl'. by apply (so_ins _ _ _ _ H). }
      split; [done|]. split; [done|]. split.
      + intros y Hy. apply Hin. by apply Hl'.
      + intros y Hy. apply Hout. intros Hy'. by apply Hy, Hl'.
  Qed.

  Lemma reset_target_distances_spec s l t :
    side_ok n parent s l -> length t = n ->
    exists t', reset_target_distances c s t = Some t' /\ length t' = n /\
      (forall y, y ∈ l -> tv t' y = inf_weight) /\ (forall y, y ∉ l -> tv t' y = tv t y).
  Proof.
    intros H Ht. unfold reset_target_distances. rewrite (for_segments_each _ _ _ _ WF _ _ _ _ H).
    destruct (for_each_inv (fun pre t' => length t' = n /\
        (forall y, y ∈ pre -> tv t' y = inf_weight) /\ (forall y, y ∉ pre -> tv t' y = tv t y))
      (fun x t => wr t x inf_weight) l t) as (t' & Hf & Hi).
    - split; [done|]. split; [by intros y ?%elem_of_nil|done].
    - intros pre x post t' Hl (Hlt & Hin & Hout).
      assert (x < n) as Hx.
      { eapply (ord_lt _ _ _ _ WF); [apply H|]. rewrite Hl. apply elem_of_app. right. constructor. }
      rewrite wr_Some by lia. eexists. split; [done|]. rewrite insert_length. split; [done|]. split.
      + intros y Hy. rewrite tv_insert by lia. case_decide as Hxy; [done|].
        apply Hin. apply elem_of_app in Hy as [?|Hy%elem_of_list_singleton]; [done|congruence].
      + intros y Hy. rewrite not_elem_of_app in Hy. destruct Hy as [Hy Hxy]. apply not_elem_of_cons in Hxy as [Hxy _].
        rewrite tv_insert by lia. rewrite decide_False by done. by apply Hout.
    - rewrite Hf. exists t'. by split.
  Qed.

  (** ** Pinning *)
  Lemma internal_pin_spec s targets ranks :
    fresh n s -> mapM (fun t => c_rank c !! t) targets = Some ranks -> Forall (fun x => x < n) ranks ->
    exists ins es l, internal_pin c targets s = Some (mkSide (td s) (pr s) ins ranks es) /\
      side_ok n parent (mkSide (td s) (pr s) ins ranks es) l /\ (forall x, x ∈ ranks -> x ∈ l).
  Proof.
    intros Hs Hr Hlt. unfold internal_pin.
    pose proof (fresh_ok _ _ _ _ WF _ Hs) as [Hok _].
    assert (forall targets ranks ins ns es l, mapM (fun t => c_rank c !! t) targets = Some ranks -> Forall (fun x => x < n) ranks ->
      side_ok n parent (mkSide (td s) (pr s) ins ns es) l -> (forall x, x ∈ ns -> x ∈ l) ->
      exists ins' es' l', for_each targets (fun t '(ins, ns, es) =>
        x ← c_rank c !! t;
        '(ins, e) ← forall_ancestors (c_parent c) mark (length (c_parent c)) (Some x) None (ins, None);
        Some (ins, ns ++ [x], es ++ [e])) (ins, ns, es) = Some (ins', ns ++ ranks, es') /\
        side_ok n parent (mkSide (td s) (pr s) ins' (ns ++ ranks) es') l' /\ (forall x, x ∈ ns ++ ranks -> x ∈ l')) as Hgen.
    { clear Hr Hlt Hok targets ranks. induction targets as [|t targets IH]; intros ranks ins ns es l Hr Hlt Hok Hns; cbn [mapM] in Hr.
      - injection Hr as <-. exists ins, es, l. rewrite app_nil_r. done.
      - destruct (c_rank c !! t) as [x|] eqn:Hx; [|done]. bs.
        destruct (mapM (fun t => c_rank c !! t) targets) as [r|] eqn:Hr'; [|done]. bs. injection Hr as <-.
        apply Forall_cons in Hlt as [Hxn Hlt]. cbn [for_each]. rewrite Hx. bs.
        destruct (mark_spec n parent Hplen Hpar l [] (length (c_parent c)) x ins) as (ins' & e & k & H1' & H2' & H3' & H4' & H5' & H6' & H7');
          [done|fold parent; lia|apply (so_in _ _ _ _ Hok)|apply Hok| |by intros ? ?%elem_of_nil|].
        { intros y. pose proof (so_ins _ _ _ _ Hok y) as Hi. cbn in Hi. rewrite Hi. rewrite elem_of_nil. naive_solver. }
        unfold parent in H1'. rewrite H1'. bs. cbv iota.
        destruct (IH r ins' (ns ++ [x]) (es ++ [e]) (k ++ l)) as (ins2 & es2 & l2 & Hf & Hok2 & Hin2); [done|done| | |].
        + destruct (so_segs _ _ _ _ Hok) as (segs & Hn & He & Hc & Hl). cbn in Hn, He.
          constructor; cbn; [by rewrite (fr_td _ _ Hs), replicate_length|apply Hs|done| |done|].
          { intros y. rewrite H6', elem_of_nil. naive_solver. }
          exists (segs ++ [(x, e, k)]). rewrite !fmap_app, reverse_app. cbn [fmap list_fmap fst snd].
          rewrite reverse_singleton. cbn [app concat]. rewrite <- Hl.
          split; [by rewrite Hn|]. split; [by rewrite He|]. split; [|done].
          apply Forall_app. split; [|by apply Forall_singleton].
          eapply Forall_impl; [exact Hc|]. cbn. intros g [? ?]. rewrite elem_of_app. naive_solver.
        + intros y [Hy| ->%elem_of_list_singleton]%elem_of_app; [|done]. apply elem_of_app. right. auto.
        + rewrite <- app_assoc in Hf, Hok2, Hin2. exists ins2, es2, l2. done. }
    destruct (Hgen targets ranks (insp s) [] [] []) as (ins & es & l & Hf & Hok' & Hin); [done|done| |by intros x ?%elem_of_nil|].
    { pose proof (fr_nodes _ _ Hs) as E1. pose proof (fr_ends _ _ Hs) as E2. rewrite <- E1 at 1. rewrite <- E2. by destruct s. }
    exists ins, es, l. unfold mark in Hf. rewrite Hf. bs. done.
  Qed.

  (** ** Downward relaxation *)
  Section Down.
    Context (W : list N) (HWlen : length W = length (up_head c)) (HW : Forall (fun x => (x <= inf_weight)%N) W).

    Lemma relax_incoming_spec x t :
      x < n -> length t = n -> Forall (fun x => (x <= inf_weight)%N) t ->
      exists t', relax_incoming c W x t = Some t' /\ length t' = n /\ Forall (fun x => (x <= inf_weight)%N) t' /\
        (forall y, y <> x -> tv t' y = tv t y) /\ (tv t' x <= tv t x)%N /\
        (forall y wt, upw c W x y wt -> (tv t' x <= tv t y + wt)%N) /\
        (tv t' x = tv t x \/ exists y wt, upw c W x y wt /\ tv t' x = (tv t y + wt)%N).
    Proof.
      intros Hx Ht Hinf. unfold relax_incoming.
      destruct (csr_range _ _ _ x (wf_up _ _ _ _ WF)) as (lo & hi & Hlo & Hhi & Hr); [done|].
      rewrite Hlo. bs. rewrite Hhi. bs.
      destruct (for_range_inv (fun j t' => length t' = n /\ Forall (fun x => (x <= inf_weight)%N) t' /\
          (forall y, y <> x -> tv t' y = tv t y) /\ (tv t' x <= tv t x)%N /\
          (forall a y wt, a < j -> up_arc c a x y -> W !! a = Some wt -> (tv t' x <= tv t y + wt)%N) /\
          (tv t' x = tv t x \/ exists y wt, upw c W x y wt /\ tv t' x = (tv t y + wt)%N))
        (fun xy t => y ← up_head c !! xy; ty ← t !! y; wxy ← W !! xy; tx ← t !! x;
          if decide (add32 ty wxy < tx)%N then wr t x (add32 ty wxy) else Some t) lo hi t) as (t' & Hf & Hl' & Hi' & Ho & Hle & Ha & Htight); [lia| | |].
      - split; [done|]. split; [done|]. split; [done|]. split; [lia|]. split; [|by left].
        intros a y wt Ha Hay _. apply (up_arc_out _ _ _ _ WF) in Hay as [(lo' & hi' & ? & ? & ?) _]. simplify_eq. lia.
      - intros j t1 Hj (Hl1 & Hi1 & Ho & Hle & Ha & Htight).
        assert (exists y, up_head c !! j = Some y) as [y Hy] by (apply lookup_lt_is_Some_2; lia).
        assert (up_arc c j x y) as Hj2.
        { apply (up_arc_out _ _ _ _ WF). split; [|done]. by exists lo, hi. }
        destruct (lookup_lt_is_Some_2 W j) as [wt Hwt]; [lia|].
        pose proof (up_arc_lt _ _ _ _ WF _ _ _ Hj2) as Hlt.
        pose proof (tv_le _ Hi1) as Hle1.
        assert (wt <= inf_weight)%N as Hwti by (by eapply Forall_lookup_1 in HW; [|exact Hwt]).
        rewrite Hy. bs. rewrite (tv_Some t1 y) by lia. bs. rewrite Hwt. bs. rewrite (tv_Some t1 x) by lia. bs.
        rewrite add32_le by (try done; apply Hle1). rewrite (Ho y) by lia.
        case_decide as Hd.
        + rewrite wr_Some by lia. eexists. split; [done|]. rewrite insert_length. split; [done|].
          rewrite !tv_insert by lia. rewrite decide_True by done.
          split. { apply Forall_insert; [done|]. pose proof (Hle1 x). lia. }
          split. { intros z Hz. rewrite tv_insert by lia. rewrite decide_False by done. by apply Ho. }
          split; [lia|]. split.
          * intros a z wt' Haj Haz Hwt'. destruct (decide (a = j)) as [->|].
            { destruct (up_arc_fun _ _ _ _ _ _ Haz Hj2) as [_ ->]. simplify_eq. lia. }
            pose proof (Ha a z wt' ltac:(lia) Haz Hwt'). lia.
          * right. exists y, wt. split; [by exists j|done].
        + eexists. split; [done|]. split; [done|]. split; [done|]. split; [done|]. split; [done|]. split; [|done].
          intros a z wt' Haj Haz Hwt'. destruct (decide (a = j)) as [->|].
          { destruct (up_arc_fun _ _ _ _ _ _ Haz Hj2) as [_ ->]. simplify_eq. lia. }
          apply (Ha a); [lia|done|done].
      - exists t'. split; [exact Hf|]. split; [done|]. split; [done|]. split; [done|]. split; [done|]. split; [|done].
        intros y wt (a & Hay & Hwt). eapply (Ha a); [|done|done].
        apply (up_arc_out _ _ _ _ WF) in Hay as [(lo' & hi' & ? & ? & ?) _]. simplify_eq. lia.
    Qed.

    (** [t1]: after the upward phase; [dn]: the nodes done, an upper part of the search space. *)
    Record dninv (dn : list nat) (t1 t : list N) : Prop := {
      dn_t : length t = n;
      dn_inf : Forall (fun x => (x <= inf_weight)%N) t;
      dn_out : forall y, y ∉ dn -> tv t y = tv t1 y;
      dn_le : forall y, (tv t y <= tv t1 y)%N;
      dn_arc : forall x y wt, x ∈ dn -> upw c W x y wt -> (tv t x <= tv t y + wt)%N;
      dn_tight : forall x, tv t x = tv t1 x \/ exists y wt, upw c W x y wt /\ tv t x = (tv t y + wt)%N }.

    Lemma down_run l t1 : ord_ok parent l -> length t1 = n -> Forall (fun x => (x <= inf_weight)%N) t1 ->
      exists t, for_each (reverse l) (relax_incoming c W) t1 = Some t /\ dninv l t1 t.
    Proof.
      intros Hord Ht Hinf. induction l as [|x l IH].
      - exists t1. split; [done|]. constructor; try done; [by intros ? ? ? ?%elem_of_nil|by left].
      - inversion Hord as [|? p ? Hxl Hp Hpin Hord']; simplify_eq. destruct (IH Hord') as (t & Hf & Hi).
        rewrite reverse_cons, for_each_app, Hf. bs. cbn [for_each].
        assert (x < n) as Hx by (eapply (ord_lt _ _ _ _ WF); [exact Hord|constructor]).
        destruct (relax_incoming_spec x t) as (t' & Hr & Hl' & Hi' & Ho & Hle & Ha & Htight); [done|apply Hi|apply Hi|].
        rewrite Hr. bs. exists t'. split; [done|].
        assert (tv t x = tv t1 x) as Hxt by (by apply Hi).
        constructor; [done|done| | | |].
        + intros y [Hyx Hyl]%not_elem_of_cons. rewrite Ho by done. by apply Hi.
        + intros y. destruct (decide (y = x)) as [->|]; [lia|]. rewrite Ho by done. by apply Hi.
        + intros z y wt Hz Hzy. pose proof (upw_lt _ _ _ _ WF _ _ _ _ Hzy) as Hlt.
          destruct (decide (z = x)) as [->|Hne].
          * rewrite (Ho y) by lia. by apply Ha.
          * apply elem_of_cons in Hz as [?|Hz]; [done|]. rewrite (Ho z) by done.
            assert (y ∈ l) as Hyl. { eapply ord_anc; [exact Hord'|exact Hz|]. by eapply (upw_anc _ _ _ _ WF). }
            rewrite (Ho y) by (intros ->; done). by eapply (dn_arc _ _ _ Hi).
        + intros z. destruct (decide (z = x)) as [->|Hne].
          * destruct Htight as [->|(y & wt & Hxy & ->)]; [left; done|]. right. exists y, wt. split; [done|].
            pose proof (upw_lt _ _ _ _ WF _ _ _ _ Hxy). by rewrite (Ho y) by lia.
          * rewrite (Ho z) by done. destruct (decide (z ∈ l)) as [Hz|Hz].
            2:{ left. by apply Hi. }
            destruct (dn_tight _ _ _ Hi z) as [?|(y & wt & Hzy & ->)]; [by left|right]. exists y, wt. split; [done|].
            assert (y ∈ l) as Hyl. { eapply ord_anc; [exact Hord'|exact Hz|]. by eapply (upw_anc _ _ _ _ WF). }
            by rewrite (Ho y) by (intros ->; done).
    Qed.
    Lemma down_le dn t1 t x z L : ord_ok parent dn -> dninv dn t1 t -> x ∈ dn -> upstar (upw c W) x z L -> (tv t x <= tv t z + L)%N.
    Proof.
      clear HWlen HW. intros Hord Hi Hx H. induction H as [x|x y z L wt H IH Ha]; [lia|]. specialize (IH Hx).
      assert (y ∈ dn). { eapply ord_anc; [exact Hord|exact Hx|by eapply (upstar_anc _ _ _ _ WF)]. }
      pose proof (dn_arc _ _ _ Hi y z wt H0 Ha). lia.
    Qed.
  End Down.

  (** ** The stack *)
  Lemma push_stack l stack : length stack = n -> NoDup l -> Forall (fun x => x < n) l ->
    for_each l (fun x '(stack, e) => stack ← wr stack e (N.of_nat x); Some (stack, S e)) (stack, 0)
    = Some ((N.of_nat <$> l) ++ drop (length l) stack, length l).
  Proof.
    intros Hs Hnd Hl.
    assert (length l <= n) as Hll.
    { rewrite <- (seq_length n 0). apply submseteq_length, NoDup_submseteq; [done|].
      intros x Hx. apply elem_of_seq. eapply Forall_forall in Hl; [|exact Hx]. lia. }
    assert (forall l pre, length pre + length l <= n ->
      for_each l (fun x '(stack, e) => stack ← wr stack e (N.of_nat x); Some (stack, S e)) (pre ++ drop (length pre) stack, length pre)
      = Some (pre ++ (N.of_nat <$> l) ++ drop (length pre + length l) stack, length pre + length l)) as Hgen.
    { clear Hnd Hl Hll l. induction l as [|x l IH]; intros pre Hp; cbn [for_each].
      - cbn. by rewrite Nat.add_0_r.
      - cbn [length] in Hp. rewrite wr_Some by (rewrite app_length, drop_length; lia). bs. cbv iota.
        destruct (lookup_lt_is_Some_2 stack (length pre)) as [z Hz]; [lia|].
        rewrite (drop_S _ _ _ Hz). rewrite insert_app_r_alt, Nat.sub_diag by lia. cbn [insert list_insert].
        specialize (IH (pre ++ [N.of_nat x])). rewrite app_length in IH. cbn [length] in IH.
        rewrite <- !app_assoc in IH. cbn [app] in IH. replace (S (length pre)) with (length pre + 1) by lia. rewrite IH by lia.
        cbn. f_equal. f_equal; [|lia]. f_equal. f_equal. f_equal. f_equal. lia. }
    specialize (Hgen l [] ltac:(cbn; lia)). cbn in Hgen. by rewrite drop_0 in Hgen.
  Qed.
  Lemma pop_stack_spec W l rest t :
    length ((N.of_nat <$> l) ++ rest) = n ->
    pop_stack c W (length l) ((N.of_nat <$> l) ++ rest) t =
      (t ← for_each (reverse l) (relax_incoming c W) t; Some (replicate (length l) inf_weight ++ rest, t)).
  Proof.
    revert rest t. induction l as [|x l IH] using rev_ind; intros rest t Hlen; [done|].
    rewrite app_length, Nat.add_1_r. cbn [pop_stack]. rewrite fmap_app, <- app_assoc.
    rewrite lookup_app_r by (rewrite fmap_length; lia). rewrite fmap_length, Nat.sub_diag. cbn [fmap list_fmap app lookup list_lookup]. bs.
    rewrite wr_Some by (rewrite app_length, fmap_length; cbn; lia). bs. rewrite Nat2N.id, reverse_snoc. cbn [for_each].
    rewrite insert_app_r_alt by (rewrite fmap_length; lia). rewrite fmap_length, Nat.sub_diag. cbn [insert list_insert].
    destruct (relax_incoming c W x t) as [t'|]; [|done]. bs. rewrite IH.
    - destruct (for_each (reverse l) _ t') as [t2|]; [|done]. bs. f_equal. f_equal.
      replace (S (length l)) with (length l + 1) by lia. rewrite replicate_add, <- app_assoc. done.
    - rewrite fmap_app, !app_length in *. cbn in *. lia.
  Qed.

  (** ** Runs *)
  (** the distances do not depend on the predecessors *)
  Lemma relax_outgoing_fst W x t p p' : length p = length p' ->
    fst <$> relax_outgoing c W x (t, p) = fst <$> relax_outgoing c W x (t, p').
  Proof.
    intros Hp. unfold relax_outgoing. destruct (up_first_out c !! x) as [lo|]; [|done]. bs.
    destruct (up_first_out c !! S x) as [hi|]; [|done]. bs. unfold for_range. generalize (hi - lo). intros cnt. revert lo t p p' Hp.
    induction cnt as [|cnt IH]; intros lo t p p' Hp; [done|]. cbn [for_n].
    destruct (up_head c !! lo) as [y|]; [|done]. bs. destruct (t !! x) as [tx|]; [|done]. bs.
    destruct (W !! lo) as [wt|]; [|done]. bs. destruct (t !! y) as [ty|]; [|done]. bs.
    case_decide; [|bs; by apply IH].
    destruct (wr t y (add32 tx wt)) as [t'|]; [|done]. bs. unfold wr. rewrite Hp. case_decide; [|done]. bs.
    apply IH. by rewrite !insert_length.
  Qed.

  Section PinRun.
    Context (WU WD : list N) (HUl : length WU = length (up_head c)) (HDl : length WD = length (up_head c)).
    Context (HUi : Forall (fun x => (x <= inf_weight)%N) WU) (HDi : Forall (fun x => (x <= inf_weight)%N) WD).

    Lemma run_to_pinned_spec src tgt lf lb ss :
      side_ok n parent src lf -> srcs_ok ss (td src) (pr src) lf ->
      side_ok n parent tgt lb -> td tgt = replicate n inf_weight ->
      exists t t1 p1, internal_run_to_pinned c WU WD src tgt = Some (with_td src t, tgt) /\ upinv n c WU lf (td src) (pr src) t1 p1 /\ dninv WD lb t1 t.
    Proof.
      intros Hs Hss Ht Htd. unfold internal_run_to_pinned.
      rewrite (for_segments_each _ _ _ _ WF _ _ _ _ Hs).
      destruct (for_each_inv (fun pre '(t, p) => p = pr src /\ exists p1, upinv n c WU pre (td src) (pr src) t p1)
        (fun x st => '(t, _) ← relax_outgoing c WU x st; Some (t, snd st)) lf (td src, pr src)) as ([t1 p] & Hf & -> & p1 & Hup).
      { split; [done|]. exists (pr src). constructor; try apply Hs; try apply Hss; try done. { by left. } by intros ? ? ? ?%elem_of_nil. }
      { intros pre x post [t p] Hl [-> (p1 & Hup)]. pose proof (so_ord _ _ _ _ Hs) as Hord. rewrite Hl in Hord.
        destruct (upinv_step _ _ _ _ WF WU HUl HUi _ _ _ _ _ _ _ Hord Hup) as (t' & p' & Hr & Hup' & _).
        pose proof (relax_outgoing_fst WU x t (pr src) p1) as Heq. rewrite Hr in Heq.
        destruct (relax_outgoing c WU x (t, pr src)) as [[t2 p2]|].
        2:{ exfalso. cbn in Heq. rewrite (so_pr _ _ _ _ Hs), (ui_p _ _ _ _ _ _ _ _ Hup) in Heq. specialize (Heq eq_refl). done. }
        bs. cbv iota. cbn in Heq. rewrite (so_pr _ _ _ _ Hs), (ui_p _ _ _ _ _ _ _ _ Hup) in Heq. specialize (Heq eq_refl). injection Heq as ->.
        eexists. split; [done|]. split; [done|]. by exists p'. }
      rewrite Hf. bs. cbv iota. rewrite (for_segments_each _ _ _ _ WF _ _ _ _ Ht).
      assert (Forall (fun x => x < n) lb) as Hlb.
      { apply Forall_forall. intros x Hx. eapply (ord_lt _ _ _ _ WF); [apply Ht|done]. }
      rewrite push_stack; [|by rewrite Htd, replicate_length|by eapply ord_nodup, Ht|done]. bs. cbv iota.
      assert (length lb <= n) as Hll.
      { rewrite <- (seq_length n 0). apply submseteq_length, NoDup_submseteq; [by eapply ord_nodup, Ht|].
        intros x Hx. apply elem_of_seq. eapply Forall_forall in Hlb; [|exact Hx]. lia. }
      rewrite pop_stack_spec.
      2:{ rewrite Htd, app_length, fmap_length, drop_length, replicate_length. lia. }
      destruct (down_run WD HDl HDi lb t1) as (t & Hd & Hdn); [apply Ht|apply Hup|apply Hup|].
      rewrite Hd. bs. cbv iota. exists t, t1, p1. split; [|done]. f_equal. f_equal.
      rewrite Htd, drop_replicate, <- replicate_add. replace (length lb + (n - length lb)) with n by lia.
      rewrite <- Htd. by destruct tgt.
    Qed.
  End PinRun.

  Section PinBest.
    Context (w : list N) (m : metric) (CU : customized rt rh c w m).
    Lemma pin_best d lf lb ss t0 p0 t1 p1 t x :
      ord_ok parent lf -> srcs_ok ss t0 p0 lf -> ord_ok parent lb ->
      upinv n c (wts m d) lf t0 p0 t1 p1 -> dninv (wts m (negb d)) lb t1 t -> x ∈ lb ->
      best_route (dgraph rt rh w d) ss [(x, 0%N)] (tv t x).
    Proof.
      intros Hof Hss Hob Hup Hdn Hx. split; [apply tv_le, Hdn|]. split.
      - intros s ds t' dt L Hs Ht Hw. apply elem_of_list_singleton in Ht as [= -> ->].
        destruct (decide (ds + L < inf_weight)%N) as [Hlt|].
        2:{ pose proof (tv_le _ (dn_inf _ _ _ _ Hdn) x). lia. }
        destruct (walk_apex _ _ _ _ Hw) as (z & L1 & L2 & HL & Hsz & Hxz & H1 & H2).
        destruct (climb _ _ _ _ WF w m CU d s z L1 Hsz) as (L1' & HL1 & Hup1); [exact H1|lia|].
        destruct (climb _ _ _ _ WF w m CU (negb d) x z L2 Hxz) as (L2' & HL2 & Hup2); [|lia|].
        { destruct H2 as [?|[k H2]]; [by left|right]. exists k. apply dgraph_rev. exact H2. }
        pose proof (up_le _ _ _ _ WF _ ss lf t0 t1 p0 p1 Hof Hss Hup _ _ _ _ Hs Hup1).
        pose proof (down_le _ _ _ _ _ _ _ Hob Hdn Hx Hup2). pose proof (dn_le _ _ _ _ Hdn z). lia.
      - destruct (decide (tv t x < inf_weight)%N) as [Hlt|].
        2:{ left. pose proof (tv_le _ (dn_inf _ _ _ _ Hdn) x). lia. }
        right. assert (exists s ds L, (s, ds) ∈ ss /\ dist_walk (dgraph rt rh w d) s x L /\ tv t x = (ds + L)%N) as (s & ds & L & Hs & Hw & Hv).
        { clear Hx. remember (n - x) as k eqn:Hk. revert x Hk Hlt. induction (lt_wf k) as [k _ IH]. intros x Hk Hlt.
          destruct (dn_tight _ _ _ _ Hdn x) as [Heq|(y & wt & Hxy & Heq)].
          - destruct (up_pred _ _ _ _ WF _ ss lf t0 t1 p0 p1 Hss Hup x ltac:(lia) (S x)) as (r & s & ds & L & _ & Hh & Hl & Hs & Hp & Hv); [lia|].
            exists s, ds, L. split; [done|]. split; [|lia].
            eapply (upstar_walk _ _ _ _ WF w m CU); [eapply upath_upstar; done|lia].
          - pose proof (upw_lt _ _ _ _ WF _ _ _ _ Hxy).
            destruct (IH (n - y) ltac:(lia) y eq_refl ltac:(lia)) as (s & ds & L & Hs & Hw & Hv).
            exists s, ds, (L + wt)%N. split; [done|]. split; [|lia]. eapply dist_walk_app; [exact Hw|].
            rewrite <- (negb_involutive d). apply dist_walk_rev.
            rewrite <- (N.add_0_l wt). eapply (upstar_walk _ _ _ _ WF w m CU (negb d)); [|lia].
            econstructor; [constructor|done]. }
        exists s, ds, x, 0%N, L. split; [done|]. split; [constructor|]. split; [done|]. lia.
    Qed.
  End PinBest.
End Pin.
