(** A reset CCH query object is indistinguishable from a new one. *)
From Verif Require Import Base UtilSpec GraphSpec PathSpec WalkSpec DijkstraReset CchModel CchSpec CchCustomizeProofs
  CchQueryProofs CchUnpackProofs CchPinProofs CchApiSpec CchApiProofs.
Ltac Zify.zify_post_hook ::= idtac.

(** Predecessors that agree wherever a distance has been set. *)
Definition pagree (t : list N) (p p' : list (option nat)) : Prop :=
  length p = length p' /\ forall y x, t !! y = Some x -> x <> inf_weight -> p !! y = p' !! y.
Record ssim (b : bool) (s s' : side) : Prop := {
  ss_td : td s = td s';
  ss_in : insp s = insp s';
  ss_no : nodes s = nodes s';
  ss_en : ends s = ends s';
  ss_len : length (pr s) = length (pr s');
  ss_pr : b = true -> pagree (td s) (pr s) (pr s') }.
Definition after_pinned_run (st : qstate) : bool := bool_decide (st = TargetRun \/ st = SourceRun).
Record qsim (q q' : query) : Prop := {
  qs_st : q_state q = q_state q';
  qs_fw : ssim (negb (after_pinned_run (q_state q))) (q_fw q) (q_fw q');
  qs_bw : ssim (negb (after_pinned_run (q_state q))) (q_bw q) (q_bw q');
  qs_meet : q_state q = Run -> q_meet q = q_meet q' }.

Lemma ssim_weak b s s' : ssim true s s' -> ssim b s s'.
Proof. intros [H1 H2 H3 H4 H5 H6]. constructor; try done. intros _. by apply H6. Qed.
Lemma pagree_insert t p p' y x v : pagree t p p' -> y < length p -> pagree (<[y := x]> t) (<[y := v]> p) (<[y := v]> p').
Proof.
  intros [Hl H] Hy. split; [by rewrite !insert_length|]. intros z d Hz Hd.
  destruct (decide (y = z)) as [->|Hne]; [rewrite !list_lookup_insert by lia; done|].
  rewrite list_lookup_insert_ne in Hz by done. rewrite !list_lookup_insert_ne by done. by eapply H.
Qed.

Lemma add_sim c ext d s s' : ssim true s s' ->
  option_Forall2 (ssim true) (internal_add_source c ext d s) (internal_add_source c ext d s').
Proof.
  intros [H1 H2 H3 H4 H5 H6]. unfold internal_add_source. rewrite <- H1, <- H2, <- H3, <- H4.
  destruct (c_rank c !! ext) as [x|]; [|constructor]. bs. destruct (td s !! x) as [t|] eqn:Ht; [|constructor]. bs.
  case_decide as Hi.
  - destruct (wr (td s) x d) as [tn|] eqn:Et; [|constructor]. bs.
    eapply F2_bind; [by apply wr_F2|]. intros p p' [-> ->].
    match goal with |- option_Forall2 _ (?X ≫= _) _ => destruct X as [[ins e]|]; [|constructor] end. bs. cbv iota.
    constructor. constructor; cbn; try done; [by rewrite !insert_length|]. intros _.
    unfold wr in Et. case_decide; [|done]. injection Et as <-.
    destruct (decide (x < length (pr s))); [by apply pagree_insert; [apply H6|]|].
    rewrite (list_insert_ge (pr s)), (list_insert_ge (pr s')) by lia. destruct (H6 eq_refl) as [Hl Ha]. split; [done|]. intros z y Hz Hy.
    destruct (decide (x = z)) as [->|]; [rewrite !lookup_ge_None_2 by lia; done|].
    rewrite list_lookup_insert_ne in Hz by done. by eapply Ha.
  - unfold min_to. rewrite Ht. bs. destruct (wr (td s) x (N.min t d)) as [tn|] eqn:Et; [|constructor]. bs.
    constructor. constructor; cbn; try done. intros _. unfold wr in Et. case_decide; [|done]. injection Et as <-.
    destruct (H6 eq_refl) as [Hl Ha]. split; [done|]. intros z y Hz Hy.
    destruct (decide (x = z)) as [->|]; [by eapply Ha|]. rewrite list_lookup_insert_ne in Hz by done. by eapply Ha.
Qed.

Lemma ancestors_sim {S T} (R : S -> T -> Prop) parent f g fuel x e s t :
  R s t -> (forall y s t, R s t -> option_Forall2 (fun a b => R (fst a) (fst b) /\ snd a = snd b) (f y s) (g y t)) ->
  option_Forall2 R (forall_ancestors parent f fuel x e s) (forall_ancestors parent g fuel x e t).
Proof.
  intros H Hf. revert x s t H. induction fuel as [|fuel IH]; intros x s t H; cbn [forall_ancestors].
  - case_decide; by constructor.
  - case_decide; [by constructor|]. destruct x as [y|]; [|constructor]. bs.
    destruct (parent !! y) as [p|]; [|constructor]. bs.
    eapply F2_bind; [by apply Hf|]. intros [s' b] [t' b'] [H1 H2]. cbn in H1, H2. subst b'. cbv iota.
    destruct b; [by apply IH|by constructor].
Qed.
Lemma segments_sim {S T} (R : S -> T -> Prop) c a b f g cnt s t :
  nodes a = nodes b -> ends a = ends b -> R s t ->
  (forall y s t, R s t -> option_Forall2 R (f y s) (g y t)) ->
  option_Forall2 R (for_segments c a f cnt s) (for_segments c b g cnt t).
Proof.
  intros Hn He H Hf. revert s t H. induction cnt as [|cnt IH]; intros s t H; cbn [for_segments]; [by constructor|].
  rewrite <- Hn, <- He. destruct (nodes a !! cnt) as [x|]; [|constructor]. bs. destruct (ends a !! cnt) as [e|]; [|constructor]. bs.
  eapply F2_bind; [|intros s' t' H'; by apply IH]. apply ancestors_sim; [done|].
  intros y s' t' H'. eapply F2_bind; [by apply Hf|]. intros. by constructor.
Qed.

Definition tpsim (s s' : list N * list (option nat)) : Prop := fst s = fst s' /\ pagree (fst s) (snd s) (snd s').
Lemma relax_sim c W x s s' : tpsim s s' -> option_Forall2 tpsim (relax_outgoing c W x s) (relax_outgoing c W x s').
Proof.
  intros H. unfold relax_outgoing. destruct (up_first_out c !! x) as [lo|]; [|constructor]. bs.
  destruct (up_first_out c !! S x) as [hi|]; [|constructor]. bs.
  apply for_range_sim; [done|]. intros j [t p] [t' p'] _ [Ht Hp]. cbn in Ht, Hp. subst t'.
  destruct (up_head c !! j) as [y|]; [|constructor]. bs. destruct (t !! x) as [tx|]; [|constructor]. bs.
  destruct (W !! j) as [wt|]; [|constructor]. bs. destruct (t !! y) as [ty|]; [|constructor]. bs.
  case_decide; [|by constructor]. destruct (wr t y (add32 tx wt)) as [t1|] eqn:E; [|constructor]. bs.
  unfold wr in E. case_decide; [|done]. injection E as <-. unfold wr. rewrite <- (proj1 Hp). case_decide as Hl; [|constructor]. bs.
  constructor. split; [done|]. by apply pagree_insert.
Qed.

(** The two sides of a query with the meeting node are found together. *)
Lemma run_sim c m q q' : qsim q q' -> option_Forall2 qsim (q_run c m q) (q_run c m q').
Proof.
  intros [Hst Hf Hb Hme]. unfold q_run. rewrite <- Hst. case_bool_decide as E; [|constructor]. cbn [chk]. bs.
  rewrite E in Hf, Hb. cbn in Hf, Hb. destruct Hf as [F1 F2 F3 F4 F5 F6], Hb as [B1 B2 B3 B4 B5 B6].
  rewrite <- F3, <- B3.
  eapply (F2_bind tpsim).
  { apply segments_sim; [done|done| |intros; by apply relax_sim]. split; [done|]. by apply F6. }
  intros [tf pf] [tf' pf'] [Ht Hp]. cbn in Ht, Hp. subst tf'.
  eapply (F2_bind (fun s s' => let '(tb, pb, me, be) := s in let '(tb', pb', me', be') := s' in
    tb = tb' /\ pagree tb pb pb' /\ me = me' /\ be = be')).
  { apply segments_sim; [done|done| |].
    - split; [done|]. split; [by apply B6|done].
    - intros y [[[tb pb] me] be] [[[tb' pb'] me'] be'] (H1 & H2 & H3 & H4). subst tb' me' be'.
      eapply (F2_bind tpsim); [by apply relax_sim|]. intros [t1 p1] [t1' p1'] [Ht1 Hp1]. cbn in Ht1, Hp1. subst t1'.
      rewrite <- F2. destruct (insp (q_fw q) !! y) as [i|]; [|constructor]. bs. destruct i; [|by constructor].
      destruct (tf !! y); [|constructor]. bs. destruct (t1 !! y); [|constructor]. bs. case_decide; by constructor. }
  intros [[[tb pb] me] be] [[[tb' pb'] me'] be'] (H1 & H2 & H3 & H4). subst tb' me' be'.
  constructor. constructor; cbn; try done; constructor; cbn; try done; try (intros _; done); [apply Hp|apply H2].
Qed.

Lemma pin_sim c l s s' b : ssim b s s' -> option_Forall2 (ssim b) (internal_pin c l s) (internal_pin c l s').
Proof.
  intros [H1 H2 H3 H4 H5 H6]. unfold internal_pin. rewrite <- H2.
  match goal with |- option_Forall2 _ (?X ≫= _) _ => destruct X as [[[ins ns] es]|]; [|constructor] end. bs. cbv iota.
  rewrite <- H1. constructor. constructor; cbn; auto.
Qed.
Lemma reset_list_sim c s s' b : ssim b s s' ->
  option_Forall2 (fun a a' => td a = td a' /\ insp a = insp a' /\ nodes a = nodes a' /\ ends a = ends a' /\ pr a = pr s /\ pr a' = pr s')
    (reset_source_list c s) (reset_source_list c s').
Proof.
  intros [H1 H2 H3 H4 H5 H6]. unfold reset_source_list. rewrite <- H1, <- H2, <- H3, <- H4.
  match goal with |- option_Forall2 _ (?X ≫= _) _ => destruct X as [[t i]|]; [|constructor] end. bs. cbv iota. by constructor.
Qed.
Lemma reset_dist_sim c s s' b t : ssim b s s' -> reset_target_distances c s t = reset_target_distances c s' t.
Proof.
  intros [H1 H2 H3 H4 H5 H6]. unfold reset_target_distances. rewrite <- H3.
  generalize (length (nodes s)). intros k. revert t. induction k as [|k IH]; intros t; [done|]. cbn [for_segments].
  rewrite <- H3, <- H4. destruct (nodes s !! k); [|done]. bs. destruct (ends s !! k); [|done]. bs.
  match goal with |- ?X ≫= _ = _ => destruct X; [|done] end. bs. apply IH.
Qed.

(** Runs to pinned nodes do not look at the predecessors. *)
Lemma relax_td c W x t p p' : length p = length p' ->
  option_Forall2 (fun a b => fst a = fst b /\ length (snd a) = length (snd b)) (relax_outgoing c W x (t, p)) (relax_outgoing c W x (t, p')).
Proof.
  intros H. unfold relax_outgoing. destruct (up_first_out c !! x) as [lo|]; [|constructor]. bs.
  destruct (up_first_out c !! S x) as [hi|]; [|constructor]. bs.
  apply for_range_sim; [done|]. intros j [t1 p1] [t1' p1'] _ [Ht Hp]. cbn in Ht, Hp. subst t1'.
  destruct (up_head c !! j) as [y|]; [|constructor]. bs. destruct (t1 !! x) as [tx|]; [|constructor]. bs.
  destruct (W !! j) as [wt|]; [|constructor]. bs. destruct (t1 !! y) as [ty|]; [|constructor]. bs.
  case_decide; [|by constructor]. destruct (wr t1 y (add32 tx wt)) as [t2|]; [|constructor]. bs.
  unfold wr. rewrite <- Hp. case_decide; [|constructor]. bs. constructor. cbn. by rewrite !insert_length.
Qed.
Lemma pinned_run_sim c WU WD a a' b b' d d' : ssim d a a' -> ssim d' b b' ->
  option_Forall2 (fun x y => ssim false (fst x) (fst y) /\ ssim false (snd x) (snd y))
    (internal_run_to_pinned c WU WD a b) (internal_run_to_pinned c WU WD a' b').
Proof.
  intros [A1 A2 A3 A4 A5 A6] [B1 B2 B3 B4 B5 B6]. unfold internal_run_to_pinned. rewrite <- A1, <- A3, <- B1, <- B3.
  eapply (F2_bind (fun x y => fst x = fst y /\ length (snd x) = length (snd y))).
  { apply segments_sim; [done|done|done|]. intros y [t p] [t' p'] [Ht Hp]. cbn in Ht, Hp. subst t'.
    eapply F2_bind; [by apply relax_td|]. intros [t1 p1] [t1' p1'] [Ht1 Hp1]. cbn in Ht1, Hp1. subst t1'. by constructor. }
  intros [t p] [t' p'] [Ht _]. cbn in Ht. subst t'.
  eapply (F2_bind eq).
  { apply segments_sim; [done|done|done|]. intros y s s' ->. by apply F2_eq. }
  intros [st e] ? <-. destruct (pop_stack c WD e st t) as [[st' t']|]; [|constructor]. bs. cbv iota.
  constructor. cbn. split; constructor; cbn; done.
Qed.

Lemma ssim_inf b s s' : ssim b s s' -> (forall y, (tv (td s) y = inf_weight)%N) -> ssim true s s'.
Proof.
  intros [H1 H2 H3 H4 H5 H6] H. constructor; try done. intros _. split; [done|]. intros y x Hy Hx.
  specialize (H y). rewrite (tv_lookup _ _ _ Hy) in H. done.
Qed.
Lemma srcs_nil_inf t p l y : srcs_ok [] t p l -> tv t y = inf_weight.
Proof.
  intros H. pose proof (tv_le _ (sr_inf _ _ _ _ H) y). destruct (decide (tv t y < inf_weight)%N) as [Hlt|]; [|lia].
  destruct (sr_val _ _ _ _ H y Hlt) as [Hin _]. by apply elem_of_nil in Hin.
Qed.
Lemma reset_source_sim c f f' b b' d d' :
  ssim d f f' -> ssim d' b b' ->
  option_Forall2 (ssim false) (g ← reset_source_list c f; t ← reset_target_distances c b (td g); Some (with_td g t))
    (g ← reset_source_list c f'; t ← reset_target_distances c b' (td g); Some (with_td g t)).
Proof.
  intros Hf Hb. eapply F2_bind; [by eapply reset_list_sim|]. intros g g' (E1 & E2 & E3 & E4 & E5 & E6). cbn beta.
  rewrite <- E1, <- (reset_dist_sim c b b' d' _ Hb). destruct (reset_target_distances c b (td g)); [|constructor]. bs.
  constructor. constructor; cbn; try done. rewrite E5, E6. apply Hf.
Qed.

Lemma fresh_ssim (n : nat) s s' : fresh n s -> fresh n s' -> ssim true s s'.
Proof.
  intros [H1 H2 H3 H4 H5] [H1' H2' H3' H4' H5']. constructor; try congruence. intros _. split; [congruence|].
  intros y x Hy Hx. rewrite H1 in Hy. by apply lookup_replicate in Hy as [-> _].
Qed.

Section Sim.
  Context (n : nat) (rt rh : list nat) (c : cch) (WF : wf_cch n rt rh c).
  Context (Hrk : forall s, s < n -> c_rank c !! s = Some (rk c s) /\ rk c s < n).

  Lemma reset_source_qsim q q' l G q1 q1' :
    qinv n c q G -> allowed n c G ResetSource (GPin true l []) -> qsim q q' ->
    q_state q = TargetPinned \/ q_state q = TargetRun -> q_reset_source c q = Some q1 -> q_reset_source c q' = Some q1' -> qsim q1 q1'.
  Proof.
    intros HG Ha [Hst Hf Hb Hme] Hq E E'. destruct (exec_ok n rt rh c WF Hrk q G _ _ HG Ha) as (q2 & E2 & Hi). cbn [exec] in E2.
    rewrite E in E2. injection E2 as <-. destruct Hi as (_ & lf & lb & _ & Hs & _ & Ht & _). cbn in Hs, Ht.
    unfold q_reset_source in E, E'. rewrite <- Hst in E'. rewrite bool_decide_true in E, E' by done. cbn [chk] in E, E'.
    rewrite bind_S in E, E'. pose proof (reset_source_sim c _ _ _ _ _ _ Hf Hb) as Hsim.
    apply bind_Some in E as (f & E1 & E). apply bind_Some in E as (t & E2 & E).
    apply bind_Some in E' as (f' & E1' & E'). apply bind_Some in E' as (t' & E2' & E').
    rewrite E1, E1', !bind_S, E2, E2', !bind_S in Hsim. apply F2_Some in Hsim. injection E as <-. injection E' as <-. cbn in Hs, Ht.
    constructor; cbn; [done| | |done].
    - eapply ssim_inf; [exact Hsim|]. intros y. by eapply srcs_nil_inf.
    - eapply ssim_inf; [exact Hb|]. intros y. rewrite Ht. unfold tv. destruct (replicate n inf_weight !! y) eqn:El; [|done].
      by apply lookup_replicate in El as [-> _].
  Qed.
  Lemma reset_target_qsim q q' l G q1 q1' :
    qinv n c q G -> allowed n c G ResetTarget (GPin false l []) -> qsim q q' ->
    q_state q = SourcePinned \/ q_state q = SourceRun -> q_reset_target c q = Some q1 -> q_reset_target c q' = Some q1' -> qsim q1 q1'.
  Proof.
    intros HG Ha [Hst Hf Hb Hme] Hq E E'. destruct (exec_ok n rt rh c WF Hrk q G _ _ HG Ha) as (q2 & E2 & Hi). cbn [exec] in E2.
    rewrite E in E2. injection E2 as <-. destruct Hi as (_ & lf & lb & _ & Hs & _ & Ht & _). cbn in Hs, Ht.
    unfold q_reset_target in E, E'. rewrite <- Hst in E'. rewrite bool_decide_true in E, E' by done. cbn [chk] in E, E'.
    rewrite bind_S in E, E'. pose proof (reset_source_sim c _ _ _ _ _ _ Hb Hf) as Hsim.
    apply bind_Some in E as (f & E1 & E). apply bind_Some in E as (t & E2 & E).
    apply bind_Some in E' as (f' & E1' & E'). apply bind_Some in E' as (t' & E2' & E').
    rewrite E1, E1', !bind_S, E2, E2', !bind_S in Hsim. apply F2_Some in Hsim. injection E as <-. injection E' as <-. cbn in Hs, Ht.
    constructor; cbn; [done| | |done].
    - eapply ssim_inf; [exact Hf|]. intros y. rewrite Ht. unfold tv. destruct (replicate n inf_weight !! y) eqn:El; [|done].
      by apply lookup_replicate in El as [-> _].
    - eapply ssim_inf; [exact Hsim|]. intros y. by eapply srcs_nil_inf.
  Qed.

  (** After an allowed call the two objects still behave alike. *)
  Theorem exec_sim q q' G o G' q1 q1' :
    qinv n c q G -> qinv n c q' G -> allowed n c G o G' -> qsim q q' -> exec c o q = Some q1 -> exec c o q' = Some q1' -> qsim q1 q1'.
  Proof.
    intros HG HG' Ha Hs E E'. pose proof Hs as [Hst Hf Hb Hme].
    assert (option_Forall2 qsim (exec c o q) (exec c o q') -> qsim q1 q1') as Hdone.
    { rewrite E, E'. apply F2_Some. }
    destruct Ha as [ss ts s d ? ?|ss ts s d ? ?|ss ts m ?|ss l ?|ts l ?|l ss s d ? ?|l ts s d ? ?
      |l ss m ?|l ts m ?|l ss|l m ss|l ts|l m ts|G]; cbn [exec] in *.
    14:{ (* both sides are fresh *)
      pose proof (exec_ok n rt rh c WF Hrk q G Reset _ HG (al_reset _ _ _)) as (q2 & E2 & H2).
      pose proof (exec_ok n rt rh c WF Hrk q' G Reset _ HG' (al_reset _ _ _)) as (q2' & E2' & H2'). cbn [exec] in *. simplify_eq.
      destruct H2 as (S1 & ? & ? & _ & _ & F1 & _ & _ & B1), H2' as (S2 & ? & ? & _ & _ & F2 & _ & _ & B2).
      constructor; [congruence|apply ssim_weak; eapply fresh_ssim; eauto|apply ssim_weak; eapply fresh_ssim; eauto|congruence]. }
    10:{ eapply reset_source_qsim; [exact HG|apply al_reset_source|exact Hs|left; apply HG|exact E|exact E']. }
    10:{ eapply reset_source_qsim; [exact HG|apply al_reset_source'|exact Hs|right; apply HG|exact E|exact E']. }
    10:{ eapply reset_target_qsim; [exact HG|apply al_reset_target|exact Hs|left; apply HG|exact E|exact E']. }
    10:{ eapply reset_target_qsim; [exact HG|apply al_reset_target'|exact Hs|right; apply HG|exact E|exact E']. }
    all: apply Hdone; clear Hdone; destruct HG as (Hg & HG); destruct HG' as (Hg' & _).
    all: rewrite Hg in Hf, Hb; cbn in Hf, Hb.
    - unfold q_add_source. rewrite Hg, Hg', bool_decide_true by (by left). cbn [chk]. bs.
      eapply F2_bind; [by apply add_sim|]. intros a a' Haa. constructor. constructor; cbn; done.
    - unfold q_add_target. rewrite Hg, Hg', bool_decide_true by (by left). cbn [chk]. bs.
      eapply F2_bind; [by apply add_sim|]. intros a a' Haa. constructor. constructor; cbn; done.
    - by apply run_sim.
    - unfold q_pin_targets. rewrite Hg, Hg', bool_decide_true by done. cbn [chk]. bs.
      eapply F2_bind; [by apply pin_sim|]. intros a a' Haa. constructor. constructor; cbn; done.
    - unfold q_pin_sources. rewrite Hg, Hg', bool_decide_true by done. cbn [chk]. bs.
      eapply F2_bind; [by apply pin_sim|]. intros a a' Haa. constructor. constructor; cbn; done.
    - unfold q_add_source. rewrite Hg, Hg', bool_decide_true by (by right). cbn [chk]. bs.
      eapply F2_bind; [by apply add_sim|]. intros a a' Haa. constructor. constructor; cbn; done.
    - unfold q_add_target. rewrite Hg, Hg', bool_decide_true by (by right). cbn [chk]. bs.
      eapply F2_bind; [by apply add_sim|]. intros a a' Haa. constructor. constructor; cbn; done.
    - unfold q_run_to_pinned_targets. rewrite Hg, Hg', bool_decide_true by done. cbn [chk]. bs.
      eapply F2_bind; [by eapply pinned_run_sim|]. intros [a b] [a' b'] [? ?]. constructor. constructor; cbn; done.
    - unfold q_run_to_pinned_sources. rewrite Hg, Hg', bool_decide_true by done. cbn [chk]. bs.
      eapply F2_bind; [by eapply pinned_run_sim|]. intros [a b] [a' b'] [? ?]. constructor. constructor; cbn; done.
  Qed.

  Lemma exec_all_sim ops : forall q q' G G' q1 q1',
    qinv n c q G -> qinv n c q' G -> history n c G ops G' -> qsim q q' ->
    exec_all c ops q = Some q1 -> exec_all c ops q' = Some q1' -> qsim q1 q1'.
  Proof.
    induction ops as [|o ops IH]; intros q q' G G' q1 q1' H H' Hh Hs E E'.
    - cbn in E, E'. by simplify_eq.
    - inversion Hh as [|? ? G1 ? ? Ha Hh']; subst.
      destruct (exec_ok n rt rh c WF Hrk q G o G1 H Ha) as (q2 & E2 & H2).
      destruct (exec_ok n rt rh c WF Hrk q' G o G1 H' Ha) as (q2' & E2' & H2').
      unfold exec_all in E, E'. cbn [for_each] in E, E'. rewrite E2, bind_S in E. rewrite E2', bind_S in E'.
      eapply (IH q2 q2' G1); [exact H2|exact H2'|exact Hh'| |exact E|exact E']. by eapply (exec_sim q q' G o G1).
  Qed.

  (** ** Answers *)
  Lemma pred_walk_sim W ss l t0 p0 t p p' fuel y :
    srcs_ok ss t0 p0 l -> upinv n c W l t0 p0 t p -> pagree t p p' -> (tv t y < inf_weight)%N ->
    pred_walk p fuel y = pred_walk p' fuel y.
  Proof.
    intros Hs Hu [Hl Hp]. revert y. induction fuel as [|fuel IH]; intros y Hy; [done|]. cbn [pred_walk].
    rewrite <- (Hp y (tv t y)) by (first [apply tv_Some, tv_lt, Hy | lia]).
    destruct (ui_pred _ _ _ _ _ _ _ _ Hu y Hy) as [[E1 E2]|(x & wt & _ & _ & E & E2)].
    - rewrite E2. rewrite E1 in Hy. destruct (sr_val _ _ _ _ Hs y Hy) as [_ ->]. done.
    - rewrite E2. cbn. rewrite (IH x) by lia. done.
  Qed.
  Lemma observe_sim q q' G : qinv n c q G -> qsim q q' -> same_answers (observe c q) (observe c q').
  Proof.
    intros HG [Hst Hf Hb Hme]. unfold same_answers, observe. cbn.
    assert (q_state q <> Run \/ q_state q = Run) as [Hr|Hr] by (destruct (q_state q); auto).
    - assert (q_get_distance q = q_get_distance q' /\ (forall s s', q_used c q s = q_used c q' s') /\
        (forall m, q_node_path c m q = q_node_path c m q') /\ (forall m w, q_arc_path c m w q = q_arc_path c m w q')) as (-> & H2 & H3 & H4).
      { unfold q_get_distance, q_used, q_node_path, q_arc_path. rewrite <- Hst, bool_decide_false by done. done. }
      split; [done|]. split; [apply H2|]. split; [apply H2|]. split; [done|]. split; [done|].
      unfold q_distances_to_targets, q_distances_to_sources. rewrite <- Hst, (ss_td _ _ _ Hf), (ss_td _ _ _ Hb), (ss_no _ _ _ Hf), (ss_no _ _ _ Hb). done.
    - specialize (Hme Hr). rewrite Hr in Hf, Hb. cbn in Hf, Hb.
      assert (forall x, q_meet q = Some x ->
        pred_walk (pr (q_fw q)) (length (pr (q_fw q))) x = pred_walk (pr (q_fw q')) (length (pr (q_fw q'))) x /\
        pred_walk (pr (q_bw q)) (length (pr (q_bw q))) x = pred_walk (pr (q_bw q')) (length (pr (q_bw q'))) x) as Hwalk.
      { intros x Hx. destruct G as [ss ts|m ss ts|d pins ss|d pins m ss].
        - destruct HG as [HG _]. congruence.
        - destruct HG as (_ & _ & lf & lb & tf0 & pf0 & tb0 & pb0 & best & H1 & H2 & H3 & H4 & H5 & H6 & H7).
          rewrite Hx in H7. destruct H7 as (_ & _ & _ & H7 & H8).
          rewrite <- (ss_len _ _ _ Hf), <- (ss_len _ _ _ Hb). split.
          + eapply pred_walk_sim; [exact H2|exact H3|by apply Hf|lia].
          + eapply pred_walk_sim; [exact H5|exact H6|by apply Hb|lia].
        - destruct HG as [HG _]. destruct d; congruence.
        - destruct HG as [HG _]. destruct d; congruence. }
      unfold q_get_distance, q_used_source, q_used_target, q_used, q_node_path, q_arc_path, unpack_shortest_path, q_distances_to_targets, q_distances_to_sources.
      rewrite <- Hst, <- Hme, Hr, (bool_decide_true (Run = Run)), !bool_decide_false by done. cbn [chk].
      destruct (q_meet q) as [x|]; [|done]. destruct (Hwalk x eq_refl) as [W1 W2].
      rewrite (ss_td _ _ _ Hf), (ss_td _ _ _ Hb), W1, W2. done.
  Qed.

  (** C27 *)
  Lemma reset_like_new ops1 G1 ops2 G2 : history n c (GInit [] []) ops1 G1 -> history n c (GInit [] []) ops2 G2 ->
    exists q q', exec_all c (ops1 ++ Reset :: ops2) (new_query c) = Some q /\ exec_all c ops2 (new_query c) = Some q' /\
      same_answers (observe c q) (observe c q').
  Proof.
    intros Hh1 Hh2. pose proof (new_query_inv n rt rh c WF) as Hn.
    destruct (exec_all_ok n rt rh c WF Hrk _ _ _ _ Hn Hh1) as (q1 & E1 & H1).
    destruct (exec_ok n rt rh c WF Hrk _ _ _ _ H1 (al_reset _ _ _)) as (q2 & E2 & H2).
    destruct (exec_all_ok n rt rh c WF Hrk _ _ _ _ H2 Hh2) as (q & E & H).
    destruct (exec_all_ok n rt rh c WF Hrk _ _ _ _ Hn Hh2) as (q' & E' & H').
    exists q, q'. split.
    { unfold exec_all. rewrite for_each_app. unfold exec_all in E1. rewrite E1. bs. cbn [for_each]. rewrite E2. bs. exact E. }
    split; [done|]. eapply observe_sim; [exact H|].
    eapply (exec_all_sim ops2 q2 (new_query c)); [exact H2|exact Hn|exact Hh2| |done|done].
    destruct H2 as (S1 & ? & ? & _ & _ & F1 & _ & _ & B1), Hn as (S2 & ? & ? & _ & _ & F2 & _ & _ & B2).
    constructor; [congruence|apply ssim_weak; eapply fresh_ssim; eauto|apply ssim_weak; eapply fresh_ssim; eauto|congruence].
  Qed.
End Sim.
