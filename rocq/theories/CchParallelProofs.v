(** The parallel customization ends, whatever the schedule, with the sequential result. *)
From stdpp Require Import relations.
From Verif Require Import Base UtilSpec GraphSpec PathSpec WalkSpec PermutationModel SortModel PermutationProofs SortProofs
  CchModel CchSpec CchCustomizeProofs CchTriangleProofs CchParallelModel CchLevelProofs.
Ltac Zify.zify_post_hook ::= idtac.

(** ** Termination *)
Lemma lex3_acc {X} (R : X -> X -> Prop) (A B T : X -> nat) :
  (forall x y, R x y -> A y < A x \/ (A y = A x /\ (B y < B x \/ (B y = B x /\ T y < T x)))) ->
  forall x, Acc (fun y x => R x y) x.
Proof.
  intros H.
  cut (forall a b t x, A x = a -> B x = b -> T x = t -> Acc (fun y x => R x y) x).
  { intros Hc x. by eapply Hc. }
  intros a. induction (lt_wf a) as [a _ IHa]. intros b. induction (lt_wf b) as [b _ IHb].
  intros t. induction (lt_wf t) as [t _ IHt]. intros x <- <- <-. constructor. intros y Hy.
  destruct (H x y Hy) as [Hlt|[E1 [Hlt|[E2 Hlt]]]].
  - by eapply IHa.
  - by eapply IHb.
  - by eapply IHt.
Qed.

Definition is_sm (o : mop) : nat := match o with MRelax _ _ _ _ => 0 | _ => 1 end.
Definition nsm (l : list mop) : nat := sum_list_with is_sm (l).
Definition nsm2 (l : list (list mop)) : nat := sum_list_with nsm (l).
Definition sumN (l : list N) : nat := sum_list_with N.to_nat (l).
Definition adj (m : metric) (t : thr) : nat :=
  match ph t with
  | P0 => 0 | PMin _ => 1 | P1 _ => 1 | P2 _ => 2
  | P3 y z => match prog t with
              | MRelax d _ _ tp :: _ => if decide (rd m d tp = Some z) then 4 else 1
              | _ => 0
              end
  end.
Definition msA (cf : config) : nat :=
  length (stages cf) + sum_list_with nsm2 (stages cf) + nsm2 (pend cf) + sum_list_with (fun t => nsm (prog t)) (ths cf).
Definition msB (cf : config) : nat := sumN (m_fwd (mem cf)) + sumN (m_bwd (mem cf)).
Definition thrT (m : metric) (t : thr) : nat := 6 * length (prog t) - adj m t.
Definition msT (cf : config) : nat :=
  sum_list_with (fun j => 1 + 6 * length j) (pend cf) + sum_list_with (thrT (mem cf)) (ths cf).

Lemma sum_list_fmap_app {A} (f : A -> nat) l k : sum_list_with f (l ++ k) = sum_list_with f (l) + sum_list_with f (k).
Proof. induction l as [|x l IH]; cbn; [done|]. lia. Qed.
Lemma sum_list_insert {A} (f : A -> nat) l i x o : l !! i = Some o ->
  sum_list_with f (<[i := x]> l) + f o = sum_list_with f (l) + f x.
Proof.
  revert i. induction l as [|y l IH]; intros i Hi; [done|]. destruct i as [|i]; cbn in Hi.
  - injection Hi as ->. cbn. lia.
  - specialize (IH i Hi). cbn [sum_list_with] in *. change (<[S i:=x]> (y :: l)) with (y :: <[i:=x]> l). cbn [sum_list_with]. lia.
Qed.
Lemma nsm_app l k : nsm (l ++ k) = nsm l + nsm k.
Proof. apply sum_list_fmap_app. Qed.
Lemma nsm_concat l : nsm (concat l) = nsm2 l.
Proof. unfold nsm2. induction l as [|x l IH]; [done|]. cbn [concat sum_list_with]. rewrite nsm_app. cbn. lia. Qed.
Lemma nsm2_app l k : nsm2 (l ++ k) = nsm2 l + nsm2 k.
Proof. apply sum_list_fmap_app. Qed.
Lemma len_concat (l : list (list mop)) : 6 * length (concat l) + length l = sum_list_with (fun j => 1 + 6 * length j) (l).
Proof. induction l as [|x l IH]; [done|]. cbn [concat sum_list_with]. rewrite app_length. cbn [length] in *. lia. Qed.

Lemma st_sum m d a o x m' : rd m d a = Some o -> st m d a x = Some m' ->
  sumN (m_fwd m') + sumN (m_bwd m') + N.to_nat o = sumN (m_fwd m) + sumN (m_bwd m) + N.to_nat x.
Proof.
  unfold rd, st. destruct d; intros Ho H; apply bind_Some in H as (f & Hf & H); injection H as <-; cbn [m_fwd m_bwd];
    (rewrite wr_Some in Hf by (by eapply lookup_lt_Some)); injection Hf as <-; unfold sumN;
    pose proof (sum_list_insert N.to_nat _ _ x o Ho); lia.
Qed.

Lemma thread_step_dec m t m' t' : thread_step m t = Some (m', t') ->
  nsm (prog t') < nsm (prog t) \/
  (nsm (prog t') = nsm (prog t) /\
    (sumN (m_fwd m') + sumN (m_bwd m') < sumN (m_fwd m) + sumN (m_bwd m) \/ (m' = m /\ thrT m t' < thrT m t))).
Proof.
  destruct t as [pr ph]. unfold thread_step, thrT, adj. cbn [CchParallelModel.prog CchParallelModel.ph].
  destruct pr as [|[d a x|d a x|d b mi tp] r]; [done|..].
  - destruct ph; try done. intros H. apply bind_Some in H as (m1 & _ & H). injection H as <- <-. left. cbn. lia.
  - destruct ph; try done; intros H; apply bind_Some in H as (m1 & H1 & H); injection H as <- <-.
    + right. split; [done|]. right. split; [done|]. cbn. lia.
    + left. cbn. lia.
  - destruct ph; try done.
    + intros H; apply bind_Some in H as (m1 & H1 & H); injection H as <- <-. right. split; [done|]. right. split; [done|]. cbn. lia.
    + intros H; apply bind_Some in H as (m1 & H1 & H); injection H as <- <-. right. split; [done|]. right. split; [done|]. cbn. lia.
    + intros H; apply bind_Some in H as (m1 & H1 & H); injection H as <- <-. right. split; [done|]. right. split; [done|].
      cbn [CchParallelModel.prog CchParallelModel.ph]. rewrite decide_True by done. cbn [length]. lia.
    + intros H. right. destruct (N.ltb_spec y z) as [Hlt|Hge].
      * apply bind_Some in H as (cur & Hc & H). destruct (N.eqb_spec cur z) as [->|Hne].
        -- apply bind_Some in H as (m1 & H1 & H). injection H as <- <-. split; [cbn; lia|]. left. pose proof (st_sum _ _ _ _ _ _ Hc H1). lia.
        -- injection H as <- <-. split; [done|]. right. split; [done|]. cbn [CchParallelModel.prog CchParallelModel.ph length].
           rewrite decide_False by congruence. lia.
      * injection H as <- <-. split; [cbn; lia|]. right. split; [done|]. cbn [CchParallelModel.prog CchParallelModel.ph length]. case_decide; lia.
Qed.

Lemma no_infinite cf : Acc (fun y x => step x y) cf.
Proof.
  apply (lex3_acc step msA msB msT). clear cf. intros x y []; unfold msA, msB, msT; cbn [mem pend ths stages].
  - pose proof (sum_list_insert (fun t => nsm (prog t)) _ _ t' _ H) as HA. cbn beta in HA.
    destruct (thread_step_dec _ _ _ _ H0) as [Hlt|[Heq [Hlt|[-> Hlt]]]]; [left; lia|right; split; [lia|by left]|right; split; [lia|right]].
    split; [done|]. pose proof (sum_list_insert (thrT (mem cf)) _ _ t' _ H) as HT. lia.
  - right. destruct t as [pr ph]. destruct H0 as [H0 H0']. cbn in H0, H0'. subst pr ph.
    rewrite H1. pose proof (sum_list_insert (fun t => nsm (prog t)) _ _ (mkThr (concat chunk) P0) _ H) as HA. cbn [prog] in HA.
    pose proof (sum_list_insert (thrT (mem cf)) _ _ (mkThr (concat chunk) P0) _ H) as HT.
    unfold thrT at 2 4 in HT. unfold adj in HT. cbn [prog ph length] in HT. rewrite !sum_list_fmap_app. rewrite !nsm2_app, nsm_concat in *. cbn in HA.
    pose proof (len_concat chunk). destruct chunk as [|j chunk]; [done|]. cbn [length] in *.
    split; [lia|]. right. split; [done|]. lia.
  - left. rewrite H, H1. cbn. lia.
Qed.

(** ** One step of a thread *)
Section Par.
  Context (n : nat) (rt rh : list nat) (c : cch) (WF : wf_cch n rt rh c).
  Context (w : list N) (Hlen : length w = length rt) (Hw : forall e x, w !! e = Some x -> (x <= inf_weight)%N).
  Notation arcs := (length (up_head c)).

  Definition sizes (m : metric) : Prop := length (m_fwd m) = arcs /\ length (m_bwd m) = arcs.
  Definition upd (m : metric) (d : bool) (a : nat) (x : N) (m' : metric) : Prop :=
    sizes m' /\ rd m' d a = Some x /\ forall d' b, (d', b) <> (d, a) -> rd m' d' b = rd m d' b.
  Lemma rd_ex m d a : sizes m -> a < arcs -> exists x, rd m d a = Some x.
  Proof. intros [H1 H2] Ha. unfold rd. destruct d; apply lookup_lt_is_Some_2; lia. Qed.
  Lemma st_ex m d a x : sizes m -> a < arcs -> exists m', st m d a x = Some m' /\ upd m d a x m'.
  Proof.
    intros [H1 H2] Ha. unfold st. destruct d; (rewrite wr_Some by lia); bs; eexists; (split; [done|]); unfold upd, sizes, rd; cbn [m_fwd m_bwd];
      rewrite insert_length; (split; [done|]); (split; [apply list_lookup_insert; lia|]);
      intros [] b Hne; try done; apply list_lookup_insert_ne; congruence.
  Qed.
  Lemma upd_same m d a x : sizes m -> rd m d a = Some x -> upd m d a x m.
  Proof. by split. Qed.

  Definition valid (o : mop) : Prop :=
    match o with MSet _ a _ | MMin _ a _ => a < arcs | MRelax _ b mi tp => b < arcs /\ mi < arcs /\ tp < arcs end.
  (** the operation as one atomic action *)
  Definition eff (o : mop) (m m' : metric) : Prop :=
    match o with
    | MSet d a x => upd m d a x m'
    | MMin d a x => exists y, rd m d a = Some y /\ upd m d a (N.min y x) m'
    | MRelax d b mi tp => exists p q y, rd m (negb d) b = Some p /\ rd m d mi = Some q /\ rd m d tp = Some y /\
        upd m d tp (N.min y (add32 p q)) m'
    end.
  Definition phase_ok (m : metric) (t : thr) : Prop :=
    match prog t, ph t with
    | _, P0 => True
    | MMin d a _ :: _, PMin v => rd m d a = Some v
    | MRelax d b _ _ :: _, P1 x => rd m (negb d) b = Some x
    | MRelax d b mi _ :: _, P2 y => exists p q, rd m (negb d) b = Some p /\ rd m d mi = Some q /\ y = add32 p q
    | MRelax d b mi tp :: _, P3 y z => (exists p q, rd m (negb d) b = Some p /\ rd m d mi = Some q /\ y = add32 p q) /\
        exists cur, rd m d tp = Some cur /\ (cur <= z)%N
    | _, _ => False
    end.

  Lemma thread_step_effect m t o r : sizes m -> prog t = o :: r -> valid o -> phase_ok m t ->
    exists m' t', thread_step m t = Some (m', t') /\
      ((m' = m /\ prog t' = o :: r /\ phase_ok m t') \/ (t' = mkThr r P0 /\ eff o m m')).
  Proof.
    destruct t as [pr ph]. intros Hs Hpr. cbn in Hpr. subst pr. unfold thread_step, phase_ok, valid. cbn [prog CchParallelModel.ph].
    destruct o as [d a x|d a x|d b mi tp]; intros Hv Hok.
    - destruct ph; try done. destruct (st_ex m d a x Hs Hv) as (m' & -> & Hu). bs. eexists _, _. split; [done|]. right. split; [done|]. exact Hu.
    - destruct ph; try done.
      + destruct (rd_ex m d a Hs Hv) as (v & Hvv). rewrite Hvv. bs. eexists _, _. split; [done|]. left. split; [done|]. split; [done|]. exact Hvv.
      + destruct (N.ltb_spec x v).
        * destruct (st_ex m d a x Hs Hv) as (m' & -> & Hu). bs. eexists _, _. split; [done|]. right. split; [done|]. exists v. split; [done|].
          replace (N.min v x) with x by lia. exact Hu.
        * bs. eexists _, _. split; [done|]. right. split; [done|]. exists v. split; [done|].
          replace (N.min v x) with v by lia. by apply upd_same.
    - destruct Hv as (Hb & Hmi & Htp). destruct ph; try done.
      + destruct (rd_ex m (negb d) b Hs Hb) as (v & Hvv). rewrite Hvv. bs. eexists _, _. split; [done|]. left. split; [done|]. split; [done|]. exact Hvv.
      + destruct (rd_ex m d mi Hs Hmi) as (v & Hvv). rewrite Hvv. bs. eexists _, _. split; [done|]. left. split; [done|]. split; [done|].
        cbn. by exists x, v.
      + destruct (rd_ex m d tp Hs Htp) as (v & Hvv). rewrite Hvv. bs. eexists _, _. split; [done|]. left. split; [done|]. split; [done|].
        cbn. split; [done|]. exists v. split; [done|lia].
      + destruct Hok as ((p & q & Hp & Hq & ->) & cur & Hcur & Hle). rewrite Hcur. destruct (N.ltb_spec (add32 p q) z).
        * bs. destruct (N.eqb_spec cur z) as [->|Hne].
          -- destruct (st_ex m d tp (add32 p q) Hs Htp) as (m' & -> & Hu). bs. eexists _, _. split; [done|]. right. split; [done|].
             exists p, q, z. split; [done|]. split; [done|]. split; [done|]. replace (N.min z (add32 p q)) with (add32 p q) by lia. exact Hu.
          -- eexists _, _. split; [done|]. left. split; [done|]. split; [done|]. cbn. by exists p, q.
        * eexists _, _. split; [done|]. right. split; [done|]. exists p, q, cur. split; [done|]. split; [done|]. split; [done|].
          replace (N.min cur (add32 p q)) with cur by lia. by apply upd_same.
  Qed.

  (** ** Invariants of the jobs of one parallel loop *)
  Record good (Iv : list (list mop) -> metric -> Prop) : Prop := {
    g_perm : forall J J' m, J ≡ₚ J' -> Iv J m -> Iv J' m;
    g_step : forall o r J m m', Iv ((o :: r) :: J) m -> eff o m m' -> Iv (r :: J) m';
    g_take : forall chunk J m, Iv ([] :: chunk ++ J) m -> Iv (concat chunk :: J) m;
    g_valid : forall J m, Iv J m -> sizes m /\ forall j o, j ∈ J -> o ∈ j -> valid o;
    g_compat : forall o r o' r' f J m m', Iv ((o :: r) :: (o' :: r') :: J) m -> eff o m m' ->
      phase_ok m (mkThr (o' :: r') f) -> phase_ok m' (mkThr (o' :: r') f) }.

  Definition jobs (cf : config) : list (list mop) := pend cf ++ (prog <$> ths cf).

  Lemma insert_perm {A} (l : list A) i x y : l !! i = Some x -> <[i := y]> l ≡ₚ y :: delete i l.
  Proof.
    revert i. induction l as [|z l IH]; intros i Hi; [done|]. destruct i as [|i]; [done|].
    change (<[S i := y]> (z :: l)) with (z :: <[i := y]> l). change (delete (S i) (z :: l)) with (z :: delete i l).
    rewrite (IH i Hi). apply perm_swap.
  Qed.

  Lemma stage_step Iv cf cf' : good Iv -> Iv (jobs cf) (mem cf) -> Forall (phase_ok (mem cf)) (ths cf) -> step cf cf' ->
    (stages cf' = stages cf /\ length (ths cf') = length (ths cf) /\ Iv (jobs cf') (mem cf') /\ Forall (phase_ok (mem cf')) (ths cf')) \/
    (exists p rest, pend cf = [] /\ Forall idle (ths cf) /\ stages cf = p :: rest /\ cf' = mkConfig (mem cf) p (ths cf) rest).
  Proof.
    intros G HI Hph Hstep. destruct Hstep as [i t m' t' cf Hi Ht|i t before chunk after cf Hi Hid Hp Hc|p rest cf Hp Hid Hst].
    - left. cbn [stages ths mem]. rewrite insert_length. split; [done|]. split; [done|].
      destruct (prog t) as [|o r] eqn:Hpr; [unfold thread_step in Ht; by rewrite Hpr in Ht|].
      assert (jobs cf ≡ₚ (o :: r) :: pend cf ++ (prog <$> delete i (ths cf))) as Hperm.
      { unfold jobs. rewrite (delete_Permutation _ _ _ Hi) at 1. cbn [fmap list_fmap]. rewrite Hpr. symmetry. apply Permutation_middle. }
      pose proof (g_perm _ G _ _ _ Hperm HI) as HI1.
      destruct (g_valid _ G _ _ HI1) as [Hs Hv].
      assert (forall u, pend cf ++ (prog <$> <[i := u]> (ths cf)) ≡ₚ prog u :: pend cf ++ (prog <$> delete i (ths cf))) as Hperm'.
      { intros u. rewrite (insert_perm _ _ _ u Hi) at 1. cbn [fmap list_fmap]. symmetry. apply Permutation_middle. }
      rewrite Forall_forall in Hph.
      assert (phase_ok (mem cf) t) as Hpt by (by eapply Hph, elem_of_list_lookup_2).
      destruct (thread_step_effect (mem cf) t o r Hs Hpr) as (m1 & t1 & E & Hcase);
        [eapply Hv; [constructor|constructor]|done|]. rewrite E in Ht. injection Ht as -> ->.
      destruct Hcase as [(-> & Hp1 & Hok)|(-> & Heff)].
      + split.
        * unfold jobs. cbn [pend ths mem]. eapply (g_perm _ G); [symmetry; apply Hperm'|]. by rewrite Hp1.
        * apply Forall_forall. intros t2 Ht2. rewrite (insert_perm _ _ _ _ Hi) in Ht2. apply elem_of_cons in Ht2 as [->|Ht2]; [done|].
          apply Hph. rewrite (delete_Permutation _ _ _ Hi). by constructor.
      + split.
        * unfold jobs. cbn [pend ths mem]. eapply (g_perm _ G); [symmetry; apply Hperm'|]. cbn [prog]. by eapply (g_step _ G).
        * apply Forall_forall. intros t2 Ht2. rewrite (insert_perm _ _ _ _ Hi) in Ht2. apply elem_of_cons in Ht2 as [->|Ht2].
          { unfold phase_ok. cbn [prog ph]. destruct r as [|[] ?]; done. }
          assert (phase_ok (mem cf) t2) as Hpt2. { apply Hph. rewrite (delete_Permutation _ _ _ Hi). by constructor. }
          destruct t2 as [[|o' r'] f]; [done|].
          apply elem_of_Permutation in Ht2 as (k & Hk).
          eapply (g_compat _ G o r o' r' f (pend cf ++ (prog <$> k))); [|done|done].
          eapply (g_perm _ G); [|exact HI1]. constructor. rewrite Hk. cbn [fmap list_fmap prog]. symmetry. apply Permutation_middle.
    - left. cbn [stages ths mem]. rewrite insert_length. split; [done|]. split; [done|]. destruct t as [pr f]. destruct Hid as [Hid Hf]. cbn in Hid, Hf. subst pr f.
      split.
      + unfold jobs. cbn [pend ths].
        assert ((before ++ after) ++ (prog <$> <[i := mkThr (concat chunk) P0]> (ths cf)) ≡ₚ
          concat chunk :: before ++ after ++ (prog <$> delete i (ths cf))) as Hperm'.
        { rewrite (insert_perm _ _ _ _ Hi) at 1. cbn [fmap list_fmap prog]. rewrite <- Permutation_middle. by rewrite <- app_assoc. }
        eapply (g_perm _ G); [symmetry; exact Hperm'|]. apply (g_take _ G).
        eapply (g_perm _ G); [|exact HI]. unfold jobs. rewrite (delete_Permutation _ _ _ Hi) at 1. cbn [fmap list_fmap prog].
        rewrite <- Permutation_middle. rewrite Hp. constructor.
        rewrite <- !app_assoc. apply Permutation_app_swap_app.
      + apply Forall_forall. intros t2 Ht2. rewrite (insert_perm _ _ _ _ Hi) in Ht2. apply elem_of_cons in Ht2 as [->|Ht2].
        { unfold phase_ok. cbn [prog ph]. destruct (concat chunk) as [|[] ?]; done. }
        rewrite Forall_forall in Hph. apply Hph. rewrite (delete_Permutation _ _ _ Hi). by constructor.
    - right. by exists p, rest.
  Qed.

  Lemma stage_progress Iv cf : good Iv -> Iv (jobs cf) (mem cf) -> Forall (phase_ok (mem cf)) (ths cf) -> ths cf <> [] ->
    final cf \/ exists cf', step cf cf'.
  Proof.
    intros G HI Hph Hne. destruct (g_valid _ G _ _ HI) as [Hs Hv].
    destruct (decide (Forall (fun t => prog t = []) (ths cf))) as [Hall|Hnot].
    - assert (Forall idle (ths cf)) as Hid.
      { apply Forall_forall. intros t Ht. rewrite Forall_forall in Hall, Hph. specialize (Hall t Ht). specialize (Hph t Ht).
        destruct t as [pr f]. cbn in Hall. subst pr. split; [done|]. unfold phase_ok in Hph. cbn in Hph. by destruct f. }
      destruct (pend cf) as [|j p] eqn:Hp.
      + destruct (stages cf) as [|p rest] eqn:Hst; [by left|]. right. eexists. by eapply step_barrier.
      + right. destruct (ths cf) as [|t ts] eqn:Ht; [done|]. eexists. eapply (step_take 0 t [] (j :: p) []); [by rewrite Ht|by apply Forall_cons in Hid as [? _]| |done].
        by rewrite app_nil_r, Hp.
    - apply not_Forall_Exists in Hnot; [|intros []; cbn; apply _]. apply Exists_exists in Hnot as (t & Ht & Hpr). cbn in Hpr.
      destruct (prog t) as [|o r] eqn:E; [done|]. apply elem_of_list_lookup in Ht as (i & Hi).
      destruct (thread_step_effect (mem cf) t o r Hs E) as (m1 & t1 & E1 & _).
      + eapply (Hv (o :: r) o); [|constructor]. unfold jobs. apply elem_of_app. right. apply elem_of_list_fmap. exists t. split; [done|].
        by eapply elem_of_list_lookup_2.
      + rewrite Forall_forall in Hph. by eapply Hph, elem_of_list_lookup_2.
      + right. eexists. by eapply step_thread.
  Qed.

  (** ** The loop over the arcs that reads the input weights *)
  Definition loc (o : mop) : option (bool * nat) :=
    match o with MSet d a _ | MMin d a _ => Some (d, a) | MRelax _ _ _ _ => None end.
  Definition proj (d : bool) (a : nat) (j : list mop) : list mop := filter (fun o => loc o = Some (d, a)) j.
  Definition val (y : N) (o : mop) : N :=
    match o with MSet _ _ x => x | MMin _ _ x => N.min y x | MRelax _ _ _ _ => y end.
  Definition vals (l : list mop) (y : N) : N := fold_left val l y.
  Definition parts (d : bool) (a : nat) (J : list (list mop)) : list (list mop) := filter (fun r => r <> []) (proj d a <$> J).

  Lemma parts_cons d a j J : parts d a (j :: J) = (if decide (proj d a j <> []) then [proj d a j] else []) ++ parts d a J.
  Proof. unfold parts. cbn [fmap list_fmap]. rewrite filter_cons. by case_decide. Qed.
  Lemma parts_app d a J K : parts d a (J ++ K) = parts d a J ++ parts d a K.
  Proof. unfold parts. by rewrite fmap_app, filter_app. Qed.
  Lemma parts_perm d a J K : J ≡ₚ K -> parts d a J ≡ₚ parts d a K.
  Proof. intros H. unfold parts. by rewrite H. Qed.
  Lemma proj_concat d a J : proj d a (concat J) = concat (parts d a J).
  Proof.
    induction J as [|j J IH]; [done|]. rewrite parts_cons. cbn [concat]. unfold proj at 1. rewrite filter_app. fold (proj d a j) (proj d a (concat J)).
    rewrite IH. case_decide as H; [done|]. assert (proj d a j = []) as -> by (destruct (proj d a j); [done|exfalso; first [done|by apply H]]). done.
  Qed.
  Lemma proj_in d a o j : o ∈ j -> loc o = Some (d, a) -> proj d a j <> [].
  Proof. intros Ho Hl E. assert (o ∈ proj d a j) as H by (by apply elem_of_list_filter). rewrite E in H. by apply elem_of_nil in H. Qed.

  Definition InvE (J : list (list mop)) (m : metric) : Prop :=
    sizes m /\ (forall j o, j ∈ J -> o ∈ j -> valid o /\ is_Some (loc o)) /\
    forall d a u v, up_arc c a u v -> length (parts d a J) <= 1 /\
      exists y, rd m d a = Some y /\ initial rt rh w d u v (vals (concat (parts d a J)) y).

  Lemma concat_short {A} (l k : list (list A)) : l ≡ₚ k -> length l <= 1 -> concat l = concat k.
  Proof.
    intros H Hl. destruct l as [|x [|y l]]; cbn in Hl; [| |lia].
    - symmetry in H. apply Permutation_nil_r in H. by subst.
    - apply Permutation_singleton_l in H. by subst.
  Qed.
  Lemma elem_of_concat {A} (x : A) (l : list (list A)) : x ∈ concat l <-> exists j, j ∈ l /\ x ∈ j.
  Proof.
    induction l as [|k l IH]; cbn [concat].
    - split; [intros ?%elem_of_nil; done|intros (? & ?%elem_of_nil & _); done].
    - rewrite elem_of_app, IH. split.
      + intros [?|(j & ? & ?)]; [exists k; split; [constructor|done]|exists j; split; [by constructor|done]].
      + intros (j & [->|?]%elem_of_cons & ?); [by left|right; eauto].
  Qed.

  Lemma eff_upd o m m' d a : eff o m m' -> loc o = Some (d, a) ->
    (forall y, rd m d a = Some y -> rd m' d a = Some (val y o)) /\ sizes m' /\ forall d' b, (d', b) <> (d, a) -> rd m' d' b = rd m d' b.
  Proof.
    destruct o as [d0 a0 x|d0 a0 x|]; cbn; intros H [= -> ->].
    - destruct H as (? & ? & ?). done.
    - destruct H as (y & Hy & ? & ? & ?). split; [|done]. intros y' Hy'. simplify_eq. done.
  Qed.

  Lemma good_E : good InvE.
  Proof.
    split.
    - intros J J' m HJ (Hs & Ho & H). split; [done|]. split; [intros j o Hj; apply Ho; by rewrite HJ|].
      intros d a u v Ha. destruct (H d a u v Ha) as (Hl & y & Hy & Hi). pose proof (parts_perm d a _ _ HJ) as Hp.
      split; [by rewrite <- Hp|]. exists y. split; [done|]. by rewrite <- (concat_short _ _ Hp Hl).
    - intros o r J m m' (Hs & Ho & H) Heff. destruct (Ho (o :: r) o) as [Hv [[d0 a0] Hloc]]; [constructor|constructor|].
      destruct (eff_upd _ _ _ _ _ Heff Hloc) as (Hval & Hs' & Hoth). split; [done|]. split.
      { intros j o' [->|Hj]%elem_of_cons Ho'; [apply (Ho (o :: r)); by constructor|apply (Ho j); [by constructor|done]]. }
      intros d a u v Ha. destruct (H d a u v Ha) as (Hl & y & Hy & Hi).
      rewrite parts_cons in Hl, Hi |- *. unfold proj in Hl, Hi. rewrite !filter_cons in Hl, Hi.
      destruct (decide ((d, a) = (d0, a0))) as [[= -> ->]|Hne].
      + rewrite (decide_True (P := loc o = Some (d0, a0))) in Hl, Hi by done.
        rewrite decide_True in Hl, Hi by done. fold (proj d0 a0 r) in Hl, Hi. cbn [app length] in Hl, Hi.
        destruct (parts d0 a0 J) as [|? ?] eqn:E; [|cbn in Hl; lia].
        split; [case_decide; cbn; lia|]. exists (val y o). split; [by apply Hval|].
        cbn [concat] in Hi. rewrite app_nil_r in Hi. unfold vals in *. cbn [fold_left] in Hi.
        case_decide as Hd; [cbn [app concat]; by rewrite app_nil_r|]. assert (proj d0 a0 r = []) as E' by (destruct (proj d0 a0 r); [done|exfalso; first [done|by apply Hd]]).
        by rewrite E' in Hi.
      + rewrite (decide_False (P := loc o = Some (d, a))) in Hl, Hi by congruence. split; [exact Hl|]. exists y. split; [by rewrite Hoth|exact Hi].
    - intros chunk J m (Hs & Ho & H). split; [done|]. split.
      { intros j o [->|Hj]%elem_of_cons Hoj.
        - apply elem_of_concat in Hoj as (j & Hj & Hoj). apply (Ho j); [|done]. constructor. apply elem_of_app. by left.
        - apply (Ho j); [|done]. constructor. apply elem_of_app. by right. }
      intros d a u v Ha. destruct (H d a u v Ha) as (Hl & y & Hy & Hi).
      rewrite parts_cons. change (parts d a ([] :: chunk ++ J)) with (parts d a (chunk ++ J)) in Hl, Hi. rewrite parts_app in Hl, Hi.
      rewrite proj_concat. destruct (parts d a chunk) as [|r [|? ?]] eqn:E; [| |cbn in Hl; rewrite app_length in Hl; lia].
      + rewrite decide_False by (intros Hn; by apply Hn). eauto.
      + cbn [concat app]. rewrite app_nil_r.
        assert (r <> []) as Hr. { assert (r ∈ parts d a chunk) as Hr by (rewrite E; constructor). by apply elem_of_list_filter in Hr as [? _]. }
        rewrite decide_True by done. split; [done|]. exists y. split; [done|exact Hi].
    - intros J m (Hs & Ho & _). split; [done|]. intros j o Hj Hoj. by apply (Ho j).
    - intros o r o' r' f J m m' (Hs & Ho & H) Heff. destruct (Ho (o :: r) o) as [Hv [[d0 a0] Hloc]]; [constructor|constructor|].
      destruct (eff_upd _ _ _ _ _ Heff Hloc) as (Hval & Hs' & Hoth).
      destruct (Ho (o' :: r') o') as [Hv' [[d1 a1] Hloc']]; [do 2 constructor|constructor|].
      assert ((d1, a1) <> (d0, a0)) as Hne.
      { intros [= -> ->]. destruct (up_arc_exists _ _ _ _ WF a0) as (u & v & Ha); [by destruct o; cbn in Hloc; simplify_eq|].
        destruct (H d0 a0 u v Ha) as (Hl & _). rewrite !parts_cons in Hl.
        rewrite decide_True in Hl by (by eapply proj_in; [constructor|]).
        rewrite decide_True in Hl by (by eapply proj_in; [constructor|]). cbn in Hl. lia. }
      unfold phase_ok. cbn [prog ph]. destruct o'; [done|..|done]. cbn in Hloc'. simplify_eq. destruct f; try done. by rewrite Hoth.
  Qed.

  (** ** The loops over the levels *)
  Context (lc : nat) (nl : list nat) (HL : levels_ok n c lc nl).

  Definition lvl (a l : nat) : Prop := exists u, up_tail c !! a = Some u /\ nl !! u = Some l.
  Lemma lvl_fun a l l' : lvl a l -> lvl a l' -> l = l'.
  Proof. intros (u & ? & ?) (u' & ? & ?). by simplify_eq. Qed.
  Lemma lvl_ex a : a < arcs -> exists l, lvl a l /\ l < lc.
  Proof.
    intros Ha. destruct (up_arc_exists _ _ _ _ WF a Ha) as (u & v & Hau). pose proof (up_arc_lt _ _ _ _ WF _ _ _ Hau).
    destruct HL as (Hl & Hlt & _). destruct (lookup_lt_is_Some_2 nl u) as [l Hul]; [lia|]. exists l. split; [|eauto]. exists u. split; [apply Hau|done].
  Qed.
  Lemma lower_tri_lvl b mi t l : lower_tri c b mi t -> lvl b l -> lvl mi l /\ exists l', lvl t l' /\ l < l'.
  Proof.
    intros (z & x & y & Hb & Hm & Ht) (z' & Hz & Hl). assert (z' = z) as -> by (destruct Hb; by simplify_eq).
    split; [exists z; split; [apply Hm|done]|]. destruct HL as (Hll & Hlt & Hup). pose proof (up_arc_lt _ _ _ _ WF _ _ _ Hb).
    destruct (lookup_lt_is_Some_2 nl x) as [lx Hlx]; [lia|]. exists lx. split; [exists x; split; [apply Ht|done]|]. by apply (Hup b z x).
  Qed.
  Lemma lower_tri_ne b mi t l a : lower_tri c b mi t -> lvl b l -> (forall l', lvl a l' -> l < l') -> b <> a /\ mi <> a.
  Proof.
    intros Ht Hb Ha. destruct (lower_tri_lvl _ _ _ _ Ht Hb) as [Hm _]. split; intros ->; [specialize (Ha l Hb)|specialize (Ha l Hm)]; lia.
  Qed.

  (** [D d b mi t]: this triangle is accounted for; [K]: bound on the levels used so far *)
  Definition Rok (D : bool -> nat -> nat -> nat -> Prop) (K : nat) (m : metric) : Prop :=
    forall d a u v, up_arc c a u v -> exists y, rd m d a = Some y /\ (y <= inf_weight)%N /\
      (forall e x, dir_arc rt rh d u v e -> w !! e = Some x -> (y <= x)%N) /\
      (forall b mi p q, lower_tri c b mi a -> D d b mi a -> rd m (negb d) b = Some p -> rd m d mi = Some q -> (y <= p + q)%N) /\
      (y = inf_weight \/ (exists e, dir_arc rt rh d u v e /\ w !! e = Some y) \/
       exists b mi p q lb, lower_tri c b mi a /\ lvl b lb /\ lb < K /\ rd m (negb d) b = Some p /\ rd m d mi = Some q /\ y = (p + q)%N).

  Definition InvR (l : nat) (J : list (list mop)) (m : metric) : Prop :=
    sizes m /\ (forall o, o ∈ concat J -> exists d b mi t, o = MRelax d b mi t /\ lower_tri c b mi t /\ lvl b l) /\
    Rok (fun d b mi t => exists lb, lvl b lb /\ (lb < l \/ (lb = l /\ MRelax d b mi t ∉ concat J))) (S l) m.

  Lemma InvR_ext l J J' m : (forall o, o ∈ concat J <-> o ∈ concat J') -> InvR l J m -> InvR l J' m.
  Proof.
    intros HJ (Hs & Ho & HR). split; [done|]. split; [intros o Hoj; by apply Ho, HJ|].
    intros d a u v Ha. destruct (HR d a u v Ha) as (y & Hy & H1 & H2 & H3 & H4). exists y. split; [done|]. split; [done|]. split; [done|]. split; [|done].
    intros b mi p q Ht (lb & Hlb & HD). apply H3; [done|]. exists lb. split; [done|]. destruct HD as [?|[? ?]]; [by left|right]. by rewrite HJ.
  Qed.

  Lemma tri_valid b mi t : lower_tri c b mi t -> b < arcs /\ mi < arcs /\ t < arcs.
  Proof.
    intros (z & x & y & Hb & Hm & Ht). pose proof (up_arc_lt _ _ _ _ WF _ _ _ Hb). pose proof (up_arc_lt _ _ _ _ WF _ _ _ Hm).
    pose proof (up_arc_lt _ _ _ _ WF _ _ _ Ht). lia.
  Qed.

  Lemma Rok_inf D K m d a y : sizes m -> Rok D K m -> rd m d a = Some y -> (y <= inf_weight)%N.
  Proof.
    intros [Hs1 Hs2] HR Hy. destruct (up_arc_exists _ _ _ _ WF a) as (u & v & Ha).
    { apply lookup_lt_Some in Hy. destruct d; lia. }
    destruct (HR d a u v Ha) as (y' & Hy' & ? & _). by simplify_eq.
  Qed.

  Lemma good_R l : good (InvR l).
  Proof.
    split.
    - intros J J' m HJ. apply InvR_ext. intros o. rewrite !elem_of_concat. by setoid_rewrite HJ.
    - intros o r J m m' (Hs & Ho & HR) Heff.
      destruct (Ho o) as (d0 & b0 & mi0 & t0 & -> & Htri & Hlb0); [cbn [concat app]; constructor|].
      destruct Heff as (p0 & q0 & y0 & Hp0 & Hq0 & Hy0 & Hs' & Hnew & Hoth).
      pose proof (Rok_inf _ _ _ _ _ _ Hs HR Hp0) as Hpi. pose proof (Rok_inf _ _ _ _ _ _ Hs HR Hq0) as Hqi.
      rewrite (add32_le _ _ Hpi Hqi) in Hnew.
      assert (forall l', lvl t0 l' -> l < l') as Htop.
      { intros l' Hl'. destruct (lower_tri_lvl _ _ _ _ Htri Hlb0) as (_ & l2 & Hl2 & ?). by rewrite (lvl_fun _ _ _ Hl' Hl2). }
      assert (forall d' b mi t lb, lower_tri c b mi t -> lvl b lb -> lb <= l -> rd m' d' b = rd m d' b /\ rd m' d' mi = rd m d' mi) as Hsrc.
      { intros d' b mi t lb Ht Hlb Hle. destruct (lower_tri_ne _ _ _ _ t0 Ht Hlb) as [? ?]; [intros l' Hl'; specialize (Htop l' Hl'); lia|].
        split; apply Hoth; congruence. }
      split; [done|]. split; [intros o Hoj; apply Ho; cbn [concat app]; by constructor|].
      intros d a u v Ha. destruct (HR d a u v Ha) as (y & Hy & H1 & H2 & H3 & H4).
      assert (forall b mi p q, lower_tri c b mi a -> (exists lb, lvl b lb /\ (lb < l \/ (lb = l /\ MRelax d b mi a ∉ concat (r :: J)))) ->
        rd m' (negb d) b = Some p -> rd m' d mi = Some q -> MRelax d b mi a <> MRelax d0 b0 mi0 t0 -> (y <= p + q)%N) as H3'.
      { intros b mi p q Ht (lb & Hlb & HD) Hp Hq Hne. destruct (Hsrc (negb d) b mi a lb Ht Hlb) as [E1 _]; [lia|].
        destruct (Hsrc d b mi a lb Ht Hlb) as [_ E2]; [lia|]. rewrite E1 in Hp. rewrite E2 in Hq. apply (H3 b mi p q Ht); [|done..].
        exists lb. split; [done|]. destruct HD as [?|[? Hn]]; [by left|right]. split; [done|]. cbn [concat app]. rewrite elem_of_cons. by intros [?|?]. }
      assert (forall y', (y' = inf_weight \/ (exists e, dir_arc rt rh d u v e /\ w !! e = Some y') \/
       exists b mi p q lb, lower_tri c b mi a /\ lvl b lb /\ lb < S l /\ rd m (negb d) b = Some p /\ rd m d mi = Some q /\ y' = (p + q)%N) ->
       (y' = inf_weight \/ (exists e, dir_arc rt rh d u v e /\ w !! e = Some y') \/
       exists b mi p q lb, lower_tri c b mi a /\ lvl b lb /\ lb < S l /\ rd m' (negb d) b = Some p /\ rd m' d mi = Some q /\ y' = (p + q)%N)) as Htight.
      { intros y' [?|[?|(b & mi & p & q & lb & Ht & Hlb & Hlt & Hp & Hq & ->)]]; [by left|by right; left|right; right].
        exists b, mi, p, q, lb. split; [done|]. split; [done|]. split; [done|].
        destruct (Hsrc (negb d) b mi a lb Ht Hlb) as [-> _]; [lia|]. destruct (Hsrc d b mi a lb Ht Hlb) as [_ ->]; [lia|]. done. }
      destruct (decide ((d, a) = (d0, t0))) as [[= -> ->]|Hne].
      + exists (N.min y0 (p0 + q0)). split; [done|]. assert (y0 = y) as -> by congruence. split; [lia|]. split; [intros e x He Hx; specialize (H2 e x He Hx); lia|]. split.
        * intros b mi p q Ht HD Hp Hq. destruct (decide (b = b0 /\ mi = mi0)) as [[-> ->]|Hn].
          -- destruct (Hsrc (negb d0) _ _ _ _ Htri Hlb0) as [E1 _]; [lia|]. destruct (Hsrc d0 _ _ _ _ Htri Hlb0) as [_ E2]; [lia|].
             rewrite E1 in Hp. rewrite E2 in Hq. simplify_eq. lia.
          -- enough (y <= p + q)%N by lia. apply (H3' b mi p q Ht HD Hp Hq). intros [= -> ->]. by apply Hn.
        * destruct (N.min_spec y (p0 + q0)) as [[_ ->]|[_ ->]]; [by apply Htight|]. apply Htight. right. right.
          exists b0, mi0, p0, q0, l. split; [done|]. split; [done|]. split; [lia|done].
      + exists y. rewrite Hoth by done. split; [done|]. split; [done|]. split; [done|]. split; [|by apply Htight].
        intros b mi p q Ht HD Hp Hq. apply (H3' b mi p q Ht HD Hp Hq). intros [= -> -> -> ->]. by apply Hne.
    - intros chunk J m. apply InvR_ext. intros o. cbn [concat app]. rewrite concat_app. done.
    - intros J m (Hs & Ho & _). split; [done|]. intros j o Hj Hoj. destruct (Ho o) as (d & b & mi & t & -> & Ht & _); [apply elem_of_concat; eauto|].
      by apply tri_valid.
    - intros o r o' r' f J m m' (Hs & Ho & HR) Heff.
      destruct (Ho o) as (d0 & b0 & mi0 & t0 & -> & Htri & Hlb0); [cbn [concat app]; constructor|].
      destruct (Ho o') as (d1 & b1 & mi1 & t1 & -> & Htri1 & Hlb1).
      { apply elem_of_concat. exists (o' :: r'). split; [do 2 constructor|constructor]. }
      destruct Heff as (p0 & q0 & y0 & Hp0 & Hq0 & Hy0 & Hs' & Hnew & Hoth).
      destruct (lower_tri_ne _ _ _ _ t0 Htri1 Hlb1) as [Hb Hm].
      { intros l' Hl'. destruct (lower_tri_lvl _ _ _ _ Htri Hlb0) as (_ & l2 & Hl2 & ?). by rewrite (lvl_fun _ _ _ Hl' Hl2). }
      unfold phase_ok. cbn [prog ph]. rewrite (Hoth (negb d1) b1), (Hoth d1 mi1) by congruence. destruct f; try done.
      intros [Hy (cur & Hcur & Hle)]. split; [done|].
      destruct (decide ((d1, t1) = (d0, t0))) as [[= -> ->]|Hne].
      + rewrite Hnew. eexists. split; [done|]. assert (y0 = cur) as -> by congruence. lia.
      + rewrite Hoth by done. eauto.
  Qed.

  (** ** From one loop to the next *)
  Definition done_upto (l : nat) (m : metric) : Prop :=
    sizes m /\ Rok (fun d b mi t => exists lb, lvl b lb /\ lb < l) l m.
  Definition stage_ok (l : nat) (J : list (list mop)) : Prop :=
    forall o, o ∈ concat J <-> exists d b mi t, o = MRelax d b mi t /\ lower_tri c b mi t /\ lvl b l.

  Lemma E_done J m : InvE J m -> (forall o, o ∉ concat J) -> done_upto 0 m.
  Proof.
    intros (Hs & Ho & H) Hno. split; [done|]. intros d a u v Ha. destruct (H d a u v Ha) as (Hl & y & Hy & Hi).
    assert (concat (parts d a J) = []) as E.
    { rewrite <- proj_concat. destruct (concat J) as [|o k]; [done|]. exfalso. apply (Hno o). constructor. }
    rewrite E in Hi. destruct Hi as (H1 & H2 & H3). exists y. split; [done|]. split; [done|]. split; [done|].
    split; [|cbn in H3; naive_solver]. intros ? ? ? ? _ (lb & _ & ?). lia.
  Qed.
  Lemma R_done l J m : InvR l J m -> (forall o, o ∉ concat J) -> done_upto (S l) m.
  Proof.
    intros (Hs & Ho & HR) Hno. split; [done|]. intros d a u v Ha. destruct (HR d a u v Ha) as (y & Hy & H1 & H2 & H3 & H4).
    exists y. split; [done|]. split; [done|]. split; [done|]. split; [|done].
    intros b mi p q Ht (lb & Hlb & Hlt). apply H3; [done|]. exists lb. split; [done|]. destruct (decide (lb = l)) as [->|]; [right; split; [done|apply Hno]|left; lia].
  Qed.
  Lemma done_R l J m : done_upto l m -> stage_ok l J -> InvR l J m.
  Proof.
    intros (Hs & HR) Hst. split; [done|]. split; [intros o Ho; by apply Hst|].
    intros d a u v Ha. destruct (HR d a u v Ha) as (y & Hy & H1 & H2 & H3 & H4).
    exists y. split; [done|]. split; [done|]. split; [done|]. split.
    - intros b mi p q Ht (lb & Hlb & HD). apply H3; [done|]. exists lb. split; [done|].
      destruct HD as [?|[-> Hn]]; [done|]. exfalso. apply Hn, Hst. by exists d, b, mi, a.
    - destruct H4 as [?|[?|(b & mi & p & q & lb & ? & ? & ? & ?)]]; [by left|by right; left|right; right].
      exists b, mi, p, q, lb. split; [done|]. split; [done|]. split; [lia|done].
  Qed.
  Lemma done_customized m : done_upto lc m -> customized rt rh c w m.
  Proof.
    intros (Hs & HR). assert (forall d a x, rd m d a = Some x -> a < arcs) as Hin.
    { intros d a x Hx. apply lookup_lt_Some in Hx. destruct Hs. destruct d; lia. }
    split; [apply Hs|apply Hs|..].
    - intros d a x Hx. by eapply (Rok_inf _ _ _ d a).
    - intros d a u v x e y Ha Hx He Hy. destruct (HR d a u v Ha) as (x' & Hx' & _ & H2 & _).
      assert (x = x') as -> by (unfold rd in *; unfold dw in *; congruence). eauto.
    - intros d b mi t x p q Ht Hx Hp Hq. destruct Ht as (z & x1 & y & Hb & Hm & Htt).
      destruct (HR d t x1 y Htt) as (x' & Hx' & _ & _ & H3 & _).
      assert (x = x') as -> by (unfold rd in *; unfold dw in *; congruence).
      eapply H3; [by exists z, x1, y| |exact Hp|exact Hq]. apply lvl_ex. by destruct (up_arc_lt _ _ _ _ WF _ _ _ Hb).
    - intros d a u v x Ha Hx. destruct (HR d a u v Ha) as (x' & Hx' & _ & _ & _ & H4).
      assert (x = x') as -> by (unfold rd in *; unfold dw in *; congruence).
      destruct H4 as [?|[?|(b & mi & p & q & lb & ? & ? & ? & ? & ? & ?)]]; [by left|by right; left|right; right]. by exists b, mi, p, q.
  Qed.

  (** ** The whole computation *)
  Context (all : list (list (list mop))) (Hall : length all = lc /\ forall l J, all !! l = Some J -> stage_ok l J).
  Definition Inv (cf : config) : Prop :=
    ths cf <> [] /\ Forall (phase_ok (mem cf)) (ths cf) /\
    ((stages cf = all /\ InvE (jobs cf) (mem cf)) \/ exists l, stages cf = drop (S l) all /\ InvR l (jobs cf) (mem cf) /\ l < lc).

  Lemma idle_jobs cf : pend cf = [] -> Forall idle (ths cf) -> forall o, o ∉ concat (jobs cf).
  Proof.
    intros Hp Hid o (j & Hj & Ho)%elem_of_concat. unfold jobs in Hj. rewrite Hp in Hj. apply elem_of_list_fmap in Hj as (t & -> & Ht).
    rewrite Forall_forall in Hid. destruct (Hid t Ht) as [E _]. rewrite E in Ho. by apply elem_of_nil in Ho.
  Qed.
  Lemma Inv_boundary cf : Inv cf -> pend cf = [] -> Forall idle (ths cf) ->
    exists l, stages cf = drop l all /\ done_upto l (mem cf) /\ l <= lc.
  Proof.
    intros (_ & _ & HI) Hp Hid. pose proof (idle_jobs cf Hp Hid) as Hno. destruct HI as [[Hst HE]|(l & Hst & HR & ?)].
    - exists 0. split; [done|]. split; [by eapply E_done|lia].
    - exists (S l). split; [done|]. split; [by eapply R_done|lia].
  Qed.
  Lemma Inv_step cf cf' : Inv cf -> step cf cf' -> Inv cf'.
  Proof.
    intros HI Hstep. pose proof HI as (Hne & Hph & HI').
    assert (exists Iv, good Iv /\ Iv (jobs cf) (mem cf) /\
      (forall cf', stages cf' = stages cf -> length (ths cf') = length (ths cf) -> Iv (jobs cf') (mem cf') -> Forall (phase_ok (mem cf')) (ths cf') -> Inv cf')) as (Iv & G & HIv & Hback).
    { destruct HI' as [[Hst HE]|(l & Hst & HR & Hl)].
      - exists InvE. split; [apply good_E|]. split; [done|]. intros cf1 E1 E2 H1 H2. split; [destruct (ths cf1), (ths cf); done|]. split; [done|]. left. by rewrite E1.
      - exists (InvR l). split; [apply good_R|]. split; [done|]. intros cf1 E1 E2 H1 H2. split; [destruct (ths cf1), (ths cf); done|]. split; [done|]. right. exists l. by rewrite E1. }
    destruct (stage_step Iv cf cf' G HIv Hph Hstep) as [(E1 & E2 & H1 & H2)|(p & rest & Hp & Hid & Hst & ->)]; [by apply Hback|].
    destruct (Inv_boundary cf HI Hp Hid) as (l & El & Hdone & Hle). rewrite Hst in El.
    assert (all !! l = Some p) as Hl. { rewrite <- (Nat.add_0_r l), <- lookup_drop, <- El. done. }
    split; [done|]. split; [done|]. right. exists l. cbn [stages mem]. split; [|split].
    - rewrite <- (Nat.add_1_r l), <- drop_drop, <- El. done.
    - apply done_R; [done|]. unfold jobs. cbn [pend ths]. intros o. rewrite <- (proj2 Hall l p Hl o), concat_app, elem_of_app.
      split; [intros [?|Ho]; [done|]|by left]. exfalso. eapply (idle_jobs cf Hp Hid o). unfold jobs. by rewrite Hp.
    - rewrite <- (proj1 Hall). by eapply lookup_lt_Some.
  Qed.
  Lemma Inv_final cf : Inv cf -> final cf -> customized rt rh c w (mem cf).
  Proof.
    intros HI (Hp & Hid & Hst). destruct (Inv_boundary cf HI Hp Hid) as (l & El & Hdone & Hle). rewrite Hst in El.
    assert (l = lc) as ->. { apply (f_equal length) in El. rewrite drop_length in El. cbn in El. destruct Hall. lia. }
    by apply done_customized.
  Qed.
  Lemma Inv_progress cf : Inv cf -> final cf \/ exists cf', step cf cf'.
  Proof.
    intros (Hne & Hph & [[_ HE]|(l & _ & HR & _)]); [by eapply stage_progress; [apply good_E|..]|by eapply stage_progress; [apply (good_R l)|..]].
  Qed.
End Par.

Section Start.
  Context (n : nat) (rt rh : list nat) (c : cch) (WF : wf_cch n rt rh c).
  Context (w : list N) (Hlen : length w = length rt) (Hw : forall e x, w !! e = Some x -> (x <= inf_weight)%N).
  Notation arcs := (length (up_head c)).

  Lemma extra_ops_spec d first extra i lo hi l a :
    first !! i = Some lo -> first !! S i = Some hi ->
    mapM (fun k => extra !! k) (seq lo (hi - lo)) = Some l ->
    Forall (fun e => is_Some (w !! e)) l ->
    exists ys, extra_ops d first extra i w a = Some (MMin d a <$> ys) /\
      (forall e y, e ∈ l -> w !! e = Some y -> y ∈ ys) /\ (forall y, y ∈ ys -> exists e, e ∈ l /\ w !! e = Some y).
  Proof.
    intros Hlo Hhi. unfold extra_ops. rewrite Hlo, bind_S, Hhi, bind_S. generalize (hi - lo) as k. intros k. clear Hlo Hhi. revert lo l.
    induction k as [|k IH]; intros lo l Hl Hall.
    - injection Hl as <-. exists []. split; [done|]. split; [by intros ? ? ?%elem_of_nil|by intros ? ?%elem_of_nil].
    - cbn [seq mapM] in Hl. destruct (extra !! lo) as [e|] eqn:He; [|done]. rewrite bind_S in Hl.
      destruct (mapM (fun k => extra !! k) (seq (S lo) k)) as [l'|] eqn:Hl'; [|done]. injection Hl as <-.
      apply Forall_cons in Hall as [[y Hy] Hall]. destruct (IH (S lo) l' Hl' Hall) as (ys & E & H1 & H2).
      cbn [seq mapM]. rewrite He, bind_S, Hy. bs. rewrite E. bs. exists (y :: ys). split; [done|]. split.
      + intros e' y' [->|He']%elem_of_cons Hy'; [simplify_eq; constructor|constructor; eauto].
      + intros y' [->|Hy']%elem_of_cons; [exists e; split; [constructor|done]|]. destruct (H2 y' Hy') as (e' & ? & ?). exists e'. split; [by constructor|done].
  Qed.
  Lemma vals_min d a ys x : exists x', vals (MMin d a <$> ys) x = x' /\ (x' <= x)%N /\ (forall y, y ∈ ys -> (x' <= y)%N) /\ (x' = x \/ x' ∈ ys).
  Proof.
    unfold vals. revert x. induction ys as [|y ys IH]; intros x; cbn [fmap list_fmap fold_left val].
    - exists x. split; [done|]. split; [lia|]. split; [by intros ? ?%elem_of_nil|by left].
    - destruct (IH (N.min x y)) as (x' & -> & H1 & H2 & H3). exists x'. split; [done|]. split; [lia|]. split.
      + intros y' [->|Hy]%elem_of_cons; [lia|eauto].
      + destruct H3 as [->|?]; [|right; by constructor]. destruct (N.min_spec x y) as [[? ->]|[? ->]]; [by left|right; constructor].
  Qed.
  Lemma proj_min d a d' ys : proj d a (MMin d' a <$> ys) = if decide (d = d') then MMin d' a <$> ys else [].
  Proof.
    induction ys as [|y ys IH]; cbn [fmap list_fmap]; [by case_decide|]. unfold proj in *. rewrite filter_cons. rewrite IH. cbn [loc].
    destruct d, d'; repeat case_decide; done.
  Qed.

  Lemma extract_ops_spec a u v : up_arc c a u v ->
    exists ops, extract_ops c w a = Some ops /\
      (forall o, o ∈ ops -> exists d, loc o = Some (d, a)) /\
      (forall d y, initial rt rh w d u v (vals (proj d a ops) y)).
  Proof.
    intros Ha.
    destruct (wf_inputs _ _ _ _ WF true _ _ _ Ha) as (of_ & lf & Hif & Hnf & Hsf).
    destruct (wf_inputs _ _ _ _ WF false _ _ _ Ha) as (ob & lb & Hib & Hnb & Hsb).
    unfold extract_ops. unfold arc_inputs in Hif, Hib.
    destruct (has_input c !! a) as [h|]; [|done]. bs. destruct h; cbn [negb] in *.
    2:{ simplify_eq. eexists. split; [done|]. split.
        - intros o Ho. apply elem_of_cons in Ho as [->|Ho]; [by exists true|]. apply elem_of_list_singleton in Ho as ->. by exists false.
        - intros d y. unfold proj. rewrite !filter_cons, filter_nil. cbn [loc].
          assert (vals (if decide (Some (true, a) = Some (d, a)) then MSet true a inf_weight :: (if decide (Some (false, a) = Some (d, a)) then [MSet false a inf_weight] else [])
            else (if decide (Some (false, a) = Some (d, a)) then [MSet false a inf_weight] else [])) y = inf_weight) as ->.
          { destruct d; repeat case_decide; done. }
          split; [lia|]. split; [|by left]. intros e z He. exfalso. destruct d.
          + apply Hsf in He as [?|?%elem_of_nil]; done.
          + apply Hsb in He as [?|?%elem_of_nil]; done. }
    destruct (local_id (has_input c) a) as [i|]; [|done]. bs.
    destruct (fwd_input c !! i) as [o1|] eqn:Ho1; [|done]. bs.
    destruct (bwd_input c !! i) as [o2|] eqn:Ho2; [|done]. bs.
    destruct (has_extra c !! a) as [h|] eqn:Hh; [|done]. bs.
    assert (o1 = of_) as ->.
    { destruct h; cbn [negb] in Hif; [|by simplify_eq]. repeat (case_match; cbn in Hif; try done; []).
      repeat match type of Hif with (?x ≫= _) = _ => destruct x; [rewrite bind_S in Hif|done] end. by simplify_eq. }
    assert (o2 = ob) as ->.
    { destruct h; cbn [negb] in Hib; [|by simplify_eq]. repeat (case_match; cbn in Hib; try done; []).
      repeat match type of Hib with (?x ≫= _) = _ => destruct x; [rewrite bind_S in Hib|done] end. by simplify_eq. }
    destruct (first_weight_spec rt w Hlen Hw _ _ _ Ho1) as (x & Hx & Hxi & Hxle & Hxt).
    { intros e He. eapply (dir_arc_lt _ rt rh c WF w Hlen true u v). apply Hsf. by left. }
    destruct (first_weight_spec rt w Hlen Hw _ _ _ Ho2) as (y & Hy & Hyi & Hyle & Hyt).
    { intros e He. eapply (dir_arc_lt _ rt rh c WF w Hlen false u v). apply Hsb. by left. }
    rewrite Hx. bs. rewrite Hy. bs.
    assert (forall ysf ysb, (forall e y, e ∈ lf -> w !! e = Some y -> y ∈ ysf) -> (forall y, y ∈ ysf -> exists e, e ∈ lf /\ w !! e = Some y) ->
      (forall e y, e ∈ lb -> w !! e = Some y -> y ∈ ysb) -> (forall y, y ∈ ysb -> exists e, e ∈ lb /\ w !! e = Some y) ->
      (forall o, o ∈ MSet true a x :: MSet false a y :: (MMin true a <$> ysf) ++ (MMin false a <$> ysb) -> exists d, loc o = Some (d, a)) /\
      (forall d z, initial rt rh w d u v (vals (proj d a (MSet true a x :: MSet false a y :: (MMin true a <$> ysf) ++ (MMin false a <$> ysb))) z))) as Hgen.
    { intros ysf ysb Hf1 Hf2 Hb1 Hb2. split.
      - intros o Ho. apply elem_of_cons in Ho as [->|Ho]; [by exists true|]. apply elem_of_cons in Ho as [->|Ho]; [by exists false|].
        apply elem_of_app in Ho as [(z & -> & _)%elem_of_list_fmap|(z & -> & _)%elem_of_list_fmap]; [by exists true|by exists false].
      - intros d z. unfold proj. rewrite !filter_cons, filter_app. fold (proj d a (MMin true a <$> ysf)) (proj d a (MMin false a <$> ysb)).
        rewrite !proj_min. cbn [loc]. destruct d.
        + rewrite (decide_True (P := Some (true, a) = Some (true, a))) by done. rewrite (decide_False (P := Some (false, a) = Some (true, a))) by done.
          rewrite (decide_True (P := true = true)) by done. rewrite (decide_False (P := true = false)) by done. rewrite app_nil_r.
          change (vals (MSet true a x :: (MMin true a <$> ysf)) z) with (vals (MMin true a <$> ysf) x).
          destruct (vals_min true a ysf x) as (x' & -> & H1 & H2 & H3). split; [lia|]. split.
          * intros e x1 He Hx1. apply Hsf in He as [->|He]; [specialize (Hxle e x1 eq_refl Hx1); lia|eauto].
          * destruct H3 as [->|H3].
            -- destruct Hxt as [->|(e & -> & ?)]; [by left|right]. exists e. split; [apply Hsf; by left|done].
            -- destruct (Hf2 _ H3) as (e & ? & ?). right. exists e. split; [apply Hsf; by right|done].
        + rewrite (decide_False (P := Some (true, a) = Some (false, a))) by done. rewrite (decide_True (P := Some (false, a) = Some (false, a))) by done.
          rewrite (decide_True (P := false = false)) by done. rewrite (decide_False (P := false = true)) by done. cbn [app].
          change (vals (MSet false a y :: (MMin false a <$> ysb)) z) with (vals (MMin false a <$> ysb) y).
          destruct (vals_min false a ysb y) as (x' & -> & H1 & H2 & H3). split; [lia|]. split.
          * intros e x1 He Hx1. apply Hsb in He as [->|He]; [specialize (Hyle e x1 eq_refl Hx1); lia|eauto].
          * destruct H3 as [->|H3].
            -- destruct Hyt as [->|(e & -> & ?)]; [by left|right]. exists e. split; [apply Hsb; by left|done].
            -- destruct (Hb2 _ H3) as (e & ? & ?). right. exists e. split; [apply Hsb; by right|done]. }
    destruct h; cbn [negb] in *.
    - destruct (local_id (has_extra c) a) as [j|]; [|done]. bs.
      destruct (first_extra_fwd c !! j) as [lo|] eqn:Hlo; [|done]. bs.
      destruct (first_extra_fwd c !! S j) as [hi|] eqn:Hhi; [|done]. bs.
      destruct (mapM (fun k => extra_fwd c !! k) (seq lo (hi - lo))) as [l|] eqn:Hl; [|done]. bs.
      destruct (first_extra_bwd c !! j) as [lo'|] eqn:Hlo'; [|done]. bs.
      destruct (first_extra_bwd c !! S j) as [hi'|] eqn:Hhi'; [|done]. bs.
      destruct (mapM (fun k => extra_bwd c !! k) (seq lo' (hi' - lo'))) as [l'|] eqn:Hl'; [|done]. bs.
      simplify_eq.
      destruct (extra_ops_spec true _ _ _ _ _ _ a Hlo Hhi Hl) as (ysf & -> & Hf1 & Hf2).
      { apply Forall_forall. intros e He. apply lookup_lt_is_Some_2. eapply (dir_arc_lt _ rt rh c WF w Hlen true u v), Hsf. by right. }
      destruct (extra_ops_spec false _ _ _ _ _ _ a Hlo' Hhi' Hl') as (ysb & -> & Hb1 & Hb2).
      { apply Forall_forall. intros e He. apply lookup_lt_is_Some_2. eapply (dir_arc_lt _ rt rh c WF w Hlen false u v), Hsb. by right. }
      bs. eexists. split; [done|]. by apply Hgen.
    - simplify_eq. eexists. split; [done|]. apply (Hgen [] []); first [by intros ? ? ?%elem_of_nil|by intros ? ?%elem_of_nil].
  Qed.

  Lemma relax_ops_spec a x y : up_arc c a x y ->
    exists ops, relax_ops c a = Some ops /\ forall o, o ∈ ops <-> exists d mi t, o = MRelax d a mi t /\ lower_tri c a mi t.
  Proof.
    intros Ha. unfold relax_ops, forall_upper_triangles_of_arc. destruct Ha as [Hx Hy]. rewrite Hx, bind_S, Hy, bind_S.
    destruct (upper_triangles_list n rt rh c WF x y a (conj Hx Hy)) as (l & Hl & ->).
    destruct (for_until_inv (fun (pre : list (nat * nat * nat)) ops => forall o, o ∈ ops <-> exists d mi t z, o = MRelax d a mi t /\ (mi, t, z) ∈ pre) l
      (fun p ops => Some (ops ++ [MRelax true a p.1.1 p.1.2; MRelax false a p.1.1 p.1.2], true)) []) as (ops & -> & Hops).
    - intros o. split; [by intros ?%elem_of_nil|]. by intros (? & ? & ? & ? & _ & ?%elem_of_nil).
    - intros pre [[mi t] z] post s _ IH. eexists. split; [done|]. intros o. cbn [fst snd]. rewrite elem_of_app, IH. split.
      + intros [(d & mi' & t' & z' & -> & Hin)|Ho].
        * exists d, mi', t', z'. split; [done|]. apply elem_of_app. by left.
        * apply elem_of_cons in Ho as [->|Ho]; [exists true|apply elem_of_list_singleton in Ho as ->; exists false];
            (exists mi, t, z; split; [done|apply elem_of_app; right; constructor]).
      + intros (d & mi' & t' & z' & -> & [Hin|[= -> -> ->]%elem_of_list_singleton]%elem_of_app); [left; by exists d, mi', t', z'|right].
        destruct d; [constructor|do 2 constructor].
    - bs. exists ops. split; [done|]. intros o. rewrite Hops. split.
      + intros (d & mi & t & z & -> & [H1 H2]%Hl). exists d, mi, t. split; [done|]. by exists x, y, z.
      + intros (d & mi & t & -> & x' & y' & z & H0 & H1 & H2). destruct (up_arc_fun _ _ _ _ _ _ H0 (conj Hx Hy)) as [-> ->].
        exists d, mi, t, z. split; [done|]. by apply Hl.
  Qed.

  Context (lc : nat) (nl : list nat) (HL : levels_ok n c lc nl) (lv : levels) (HLV : lv_ok c lc nl lv).

  Lemma mapM_ex {A B} (f : A -> option B) (P : A -> B -> Prop) l :
    (forall x, x ∈ l -> exists y, f x = Some y /\ P x y) -> exists k, mapM f l = Some k /\ Forall2 P l k.
  Proof.
    induction l as [|x l IH]; intros H; [exists []; split; [done|constructor]|].
    destruct (H x) as (y & Hy & HP); [constructor|]. destruct IH as (k & Hk & HF); [intros; apply H; by constructor|].
    exists (y :: k). cbn [mapM]. rewrite Hy, bind_S, Hk. split; [done|by constructor].
  Qed.

  Lemma level_jobs_spec l : l < lc -> exists J, level_jobs c lv l = Some J /\ stage_ok c nl l J.
  Proof.
    intros Hl. destruct HLV as (Hlen' & Hmono & Hin & Hout). unfold level_jobs.
    destruct (lookup_lt_is_Some_2 (first_arc_of_level lv) l) as [lo Hlo]; [lia|].
    destruct (lookup_lt_is_Some_2 (first_arc_of_level lv) (S l)) as [hi Hhi]; [lia|]. rewrite Hlo, bind_S, Hhi, bind_S.
    pose proof (Hmono l lo hi Hlo Hhi) as Hle.
    destruct (mapM_ex (fun i => a ← arcs_by_level lv !! i; relax_ops c a)
      (fun i ops => exists a, arcs_by_level lv !! i = Some a /\ lvl c nl a l /\ forall o, o ∈ ops <-> exists d mi t, o = MRelax d a mi t /\ lower_tri c a mi t)
      (seq lo (hi - lo))) as (J & -> & HF).
    { intros i Hi%elem_of_seq. destruct (Hin l i) as (a & u & Ha & Hu & Hul); [exists lo, hi; split; [done|]; split; [done|lia]|].
      rewrite Ha, bind_S. destruct (lookup_lt_is_Some_2 (up_head c) a) as [v Hv]; [rewrite <- (proj1 (wf_tails _ _ _ _ WF)); by eapply lookup_lt_Some|].
      destruct (relax_ops_spec a u v) as (ops & -> & Hops); [done|]. exists ops. split; [done|]. exists a. split; [done|]. split; [by exists u|done]. }
    exists J. split; [done|]. intros o. rewrite elem_of_concat. split.
    - intros (ops & (k & Hk)%elem_of_list_lookup & Ho). destruct (Forall2_lookup_r _ _ _ _ _ HF Hk) as (i & _ & a & _ & Hla & Hops).
      apply Hops in Ho as (d & mi & t & -> & ?). by exists d, a, mi, t.
    - intros (d & b & mi & t & -> & Htri & Hb). pose proof Htri as (z & x & y & Hzx & _).
      destruct (Hout b z x Hzx) as (l' & i & Hl' & (lo' & hi' & ? & ? & Hi) & Hbi). assert (l' = l) as ->.
      { destruct Hb as (z' & Hz' & ?). destruct Hzx as [Hz _]. simplify_eq. done. }
      simplify_eq. assert (seq lo (hi - lo) !! (i - lo) = Some i) as Hs by (apply lookup_seq; lia).
      destruct (Forall2_lookup_l _ _ _ _ _ HF Hs) as (ops & Hops & a & Ha & _ & Hiff). simplify_eq. exists ops.
      split; [by eapply elem_of_list_lookup_2|]. apply Hiff. by exists d, mi, t.
  Qed.

  Lemma parts_nil d a J : (forall j, j ∈ J -> proj d a j = []) -> parts d a J = [].
  Proof.
    induction J as [|j J IH]; intros H; [done|]. rewrite parts_cons, (H j) by constructor. rewrite decide_False by (intros Hn; by apply Hn).
    apply IH. intros; apply H. by constructor.
  Qed.

  Lemma start_spec threads m : 0 < threads -> sizes c m ->
    exists cf all, start c lv w threads m = Some cf /\ Inv rt rh c w lc nl all cf /\ length all = lc /\ forall l J, all !! l = Some J -> stage_ok c nl l J.
  Proof.
    intros Ht Hs. unfold start.
    destruct (mapM_ex (extract_ops c w) (fun a ops => (forall o, o ∈ ops -> exists d, loc o = Some (d, a)) /\
      forall u v, up_arc c a u v -> forall d y, initial rt rh w d u v (vals (proj d a ops) y)) (seq 0 (c_arc_count c))) as (first & -> & HF).
    { intros a Ha%elem_of_seq. unfold c_arc_count in Ha. destruct (up_arc_exists _ _ _ _ WF a) as (u & v & Hau); [lia|].
      destruct (extract_ops_spec a u v Hau) as (ops & -> & H1 & H2). exists ops. split; [done|]. split; [done|].
      intros u' v' Hau'. by destruct (up_arc_fun _ _ _ _ _ _ Hau Hau') as [-> ->]. }
    bs. assert (length (first_arc_of_level lv) - 1 = lc) as -> by (destruct HLV; lia).
    destruct (mapM_ex (level_jobs c lv) (stage_ok c nl) (seq 0 lc)) as (all & -> & HA).
    { intros l Hl%elem_of_seq. apply level_jobs_spec. lia. }
    bs. eexists _, all. split; [done|]. split; [|split].
    - split; [cbn [ths]; destruct threads; [lia|done]|]. cbn [ths mem stages]. split.
      { apply Forall_replicate. done. }
      left. split; [done|]. unfold jobs. cbn [pend ths]. rewrite fmap_replicate. cbn [prog].
      assert (forall i j, first !! i = Some j -> i < arcs /\ (forall o, o ∈ j -> exists d, loc o = Some (d, i)) /\
         forall u v, up_arc c i u v -> forall d y, initial rt rh w d u v (vals (proj d i j) y)) as Hfirst.
      { intros i j Hj. destruct (Forall2_lookup_r _ _ _ _ _ HF Hj) as (i' & Hi' & H1 & H2). apply lookup_seq in Hi' as [-> Hi']. cbn in *. done. }
      split; [done|]. split.
      + intros j o [Hj|Hj]%elem_of_app Ho.
        * apply elem_of_list_lookup in Hj as (i & Hi). destruct (Hfirst i j Hi) as (Hia & H1 & _). destruct (H1 o Ho) as (d & Hd).
          split; [|by rewrite Hd]. destruct o; cbn in *; simplify_eq; done.
        * apply elem_of_replicate in Hj as [-> _]. by apply elem_of_nil in Ho.
      + intros d a u v Ha. rewrite parts_app. rewrite (parts_nil d a (replicate _ _)), app_nil_r.
        2:{ by intros j [-> _]%elem_of_replicate. }
        assert (length first = arcs) as Hfl. { apply Forall2_length in HF. rewrite seq_length in HF. done. }
        destruct (up_arc_lt _ _ _ _ WF _ _ _ Ha) as (Hal & _).
        destruct (lookup_lt_is_Some_2 first a) as [j Hj]; [lia|]. destruct (Hfirst a j Hj) as (_ & _ & Hin).
        assert (forall i k, i <> a -> first !! i = Some k -> proj d a k = []) as Hother.
        { intros i k Hne Hk. destruct (Hfirst i k Hk) as (_ & H1 & _). destruct (proj d a k) as [|o r] eqn:E; [done|].
          assert (o ∈ proj d a k) as Ho by (rewrite E; constructor). apply elem_of_list_filter in Ho as [Hlo Ho].
          destruct (H1 o Ho) as (d' & Hd'). congruence. }
        rewrite <- (take_drop_middle _ _ _ Hj), parts_app, parts_cons.
        rewrite (parts_nil d a (take a first)), (parts_nil d a (drop (S a) first)).
        2:{ intros k (i & Hi)%elem_of_list_lookup. rewrite lookup_drop in Hi. apply (Hother (S a + i)); [lia|done]. }
        2:{ intros k (i & Hi)%elem_of_list_lookup. apply lookup_take_Some in Hi as [Hi ?]. apply (Hother i); [lia|done]. }
        cbn [app]. rewrite app_nil_r. destruct (rd_ex rt c w Hlen Hw m d a Hs Hal) as (y & Hy).
        case_decide as Hd; cbn [length concat].
        * split; [lia|]. exists y. split; [done|]. rewrite app_nil_r. by apply Hin.
        * split; [lia|]. exists y. split; [done|]. assert (proj d a j = []) as E by (destruct (proj d a j); [done|exfalso; first [done|by apply Hd]]).
          specialize (Hin u v Ha d y). by rewrite E in Hin.
    - apply Forall2_length in HA. rewrite seq_length in HA. done.
    - intros l J HJ. destruct (Forall2_lookup_r _ _ _ _ _ HA HJ) as (l' & Hl' & Hok). apply lookup_seq in Hl' as [-> _]. done.
  Qed.
End Start.

(** customizable_contraction_hierarchy.cpp:897-945 *)
Theorem parallel_spec n rt rh c w m0 : wf_cch n rt rh c -> length w = length rt -> (forall e x, w !! e = Some x -> (x <= inf_weight)%N) ->
  length (m_fwd m0) = length (up_head c) -> length (m_bwd m0) = length (up_head c) ->
  exists lv m, build_levels c = Some lv /\ customize c w m0 = Some m /\
    forall threads, 0 < threads -> exists cf, start c lv w threads m0 = Some cf /\
      forall cf', rtc step cf cf' -> (final cf' -> mem cf' = m) /\ (final cf' \/ exists cf2, step cf' cf2).
Proof.
  intros WF Hlen Hw Hf Hb. destruct (build_levels_spec n rt rh c WF) as (lc & nl & lv & Hlv & HL & HLV).
  destruct (customize_spec n rt rh c WF w Hlen Hw m0 Hf Hb) as (m & Hm & CU). exists lv, m. split; [done|]. split; [done|].
  intros threads Ht. destruct (start_spec n rt rh c WF w Hlen Hw lc nl lv HLV threads m0 Ht (conj Hf Hb)) as (cf & all & Hst & HI & Hall).
  exists cf. split; [done|]. intros cf' Hr. assert (Inv rt rh c w lc nl all cf') as HI'.
  { clear Hst. induction Hr as [|x y z Hxy _ IH]; [done|]. apply IH. by eapply (Inv_step n rt rh c WF w Hlen Hw lc nl HL all Hall). }
  split.
  - intros Hfin. eapply (customized_unique n rt rh c WF w); [done| |done]. by eapply (Inv_final n rt rh c WF w Hlen Hw lc nl HL all Hall).
  - by eapply (Inv_progress n rt rh c WF w Hlen Hw lc nl HL all).
Qed.
