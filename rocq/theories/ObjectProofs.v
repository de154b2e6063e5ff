(** Programs with several objects. *)
From Verif Require Import Base IdQueueModel IdQueueSpec IdQueueProofs IdSetModel IdSetSpec IdSetProofs ObjectModel ObjectSpec.
Ltac Zify.zify_post_hook ::= idtac.

Section refine.
  Context {T A Op Out : Type} (step : T -> Op -> option (Out * T)) (fresh : nat -> T) (dflt : T) (moved : T -> T)
    (legal : A -> Op -> Prop) (spec : A -> Op -> Out -> A -> Prop) (a_fresh : nat -> A) (a_dflt : A) (a_moved : A -> A) (ref : T -> A -> Prop).
  Definition class_ok : Prop :=
    (forall a o, legal a o \/ ~ legal a o) /\ (forall n, ref (fresh n) (a_fresh n)) /\ ref dflt a_dflt /\ (forall v a, ref v a -> ref (moved v) (a_moved a)) /\
    (forall v a o, ref v a -> legal a o -> exists r v' a', step v o = Some (r, v') /\ spec a o r a' /\ ref v' a').
  Definition st_ref (st : gmap nat T) (ast : gmap nat A) : Prop := forall x, option_Forall2 ref (st !! x) (ast !! x).
  Lemma st_ref_insert st ast x v a : st_ref st ast -> ref v a -> st_ref (<[x := v]> st) (<[x := a]> ast).
  Proof.
    intros H Hv y. destruct (decide (x = y)) as [->|Hn]; [rewrite !lookup_insert; by constructor|]. rewrite !lookup_insert_ne by done. apply H.
  Qed.
  Lemma st_ref_lookup st ast x a : st_ref st ast -> ast !! x = Some a -> exists v, st !! x = Some v /\ ref v a.
  Proof. intros H E. specialize (H x). rewrite E in H. inversion H; subst. eauto. Qed.
  Lemma o_step_refines st ast c : class_ok -> st_ref st ast -> o_legal legal ast c ->
    exists r st' ast', o_step step fresh dflt moved st c = Some (r, st') /\ o_spec spec a_fresh a_dflt a_moved ast c r ast' /\ st_ref st' ast'.
  Proof.
    intros (_ & Hf & Hd & Hm & Hs) H Hl. destruct c as [x|x n|x y|x y|x y|x o]; cbn [o_legal o_step o_spec] in *.
    - eexists _, _, _. split; [done|]. split; [done|]. by apply st_ref_insert.
    - eexists _, _, _. split; [done|]. split; [done|]. by apply st_ref_insert.
    - destruct Hl as [a Ha]. destruct (st_ref_lookup _ _ _ _ H Ha) as (v & -> & Hv). rewrite bind_S. eexists _, _, _. split; [done|]. split; [eauto|]. by apply st_ref_insert.
    - destruct Hl as [a Ha]. destruct (st_ref_lookup _ _ _ _ H Ha) as (v & -> & Hv). rewrite bind_S. eexists _, _, _. split; [done|]. split; [eauto|].
      apply st_ref_insert; [by apply st_ref_insert|]. by apply Hm.
    - destruct Hl as [[a Ha] [b Hb]]. destruct (st_ref_lookup _ _ _ _ H Ha) as (v & -> & Hv). destruct (st_ref_lookup _ _ _ _ H Hb) as (w & -> & Hw).
      rewrite !bind_S. eexists _, _, _. split; [done|]. split; [by exists a, b|]. by repeat apply st_ref_insert.
    - destruct Hl as (a & Ha & Hl). destruct (st_ref_lookup _ _ _ _ H Ha) as (v & -> & Hv). rewrite bind_S.
      destruct (Hs _ _ _ Hv Hl) as (r & v' & a' & -> & Hsp & Hr). rewrite bind_S. eexists _, _, _. split; [done|]. split; [by exists a, r, a'|]. by apply st_ref_insert.
  Qed.
  Lemma o_legal_dec ast c : class_ok -> o_legal legal ast c \/ ~ o_legal legal ast c.
  Proof.
    intros (Hd & _). destruct c as [x|x n|x y|x y|x y|x o]; cbn [o_legal]; try (by left).
    - destruct (decide (is_Some (ast !! y))); tauto.
    - destruct (decide (is_Some (ast !! y))); tauto.
    - destruct (decide (is_Some (ast !! x))), (decide (is_Some (ast !! y))); tauto.
    - destruct (ast !! x) as [a|]; [|right; by intros (a & ? & _)]. destruct (Hd a o) as [H|H]; [left; eauto|right]. intros (b & [= <-] & Hb). done.
  Qed.
  Lemma o_run_refines p : forall st ast, class_ok -> st_ref st ast ->
    (exists rs st' ast', o_run step fresh dflt moved st p = Some (rs, st') /\ o_spec_run legal spec a_fresh a_dflt a_moved ast p rs ast' /\ st_ref st' ast') \/
    (exists p1 c p2 rs st' ast', p = p1 ++ c :: p2 /\ o_run step fresh dflt moved st p1 = Some (rs, st') /\
      o_spec_run legal spec a_fresh a_dflt a_moved ast p1 rs ast' /\ ~ o_legal legal ast' c).
  Proof.
    induction p as [|c p IH]; intros st ast Hc H.
    { left. exists [], st, ast. split; [done|]. split; [constructor|done]. }
    destruct (o_legal_dec ast c Hc) as [Hl|Hl].
    - destruct (o_step_refines st ast c Hc H Hl) as (r & st1 & ast1 & E & Hs & H1).
      destruct (IH st1 ast1 Hc H1) as [(rs & st2 & ast2 & E2 & Hs2 & H2)|(p1 & c' & p2 & rs & st2 & ast2 & -> & E2 & Hs2 & Hn)].
      + left. exists (r :: rs), st2, ast2. cbn [o_run]. rewrite E, bind_S, E2, bind_S. split; [done|]. split; [by econstructor|done].
      + right. exists (c :: p1), c', p2, (r :: rs), st2, ast2. split; [done|]. cbn [o_run]. rewrite E, bind_S, E2, bind_S. split; [done|]. split; [by econstructor|done].
    - right. exists [], c, p, [], st, ast. split; [done|]. split; [done|]. split; [constructor|done].
  Qed.
  Lemma st_ref_empty : st_ref ∅ ∅.
  Proof. intros x. rewrite !lookup_empty. constructor. Qed.
End refine.

Definition queue_ref (q : queue) (a : queue_value) : Prop := match a with Some (n, m) => qref n q m | None => True end.
Lemma queue_ok : class_ok qc_step new_queue queue_default queue_moved qv_legal qv_spec (fun n => Some (n, ∅)) (Some (0, ∅)) qv_moved queue_ref.
Proof.
  split_and!.
  - intros [[n m]|] [o|]; cbn [qv_legal]; try tauto. destruct o; cbn [legal]; try tauto.
    + destruct (decide (id < n)), (decide (m !! id = None)); tauto.
    + destruct (decide (m = ∅)); tauto.
    + destruct (decide (is_Some (m !! id))); tauto.
    + destruct (decide (is_Some (m !! id))); tauto.
    + destruct (decide (id < n)); tauto.
    + destruct (decide (is_Some (m !! id))); tauto.
    + destruct (decide (m = ∅)); tauto.
  - apply qref_new.
  - apply (qref_new 0).
  - intros q [[n m]|] H; cbn in *; [|done]. case_decide as Hm; [|done]. subst m. pose proof (qref_size _ _ _ H) as E. rewrite map_size_empty in E.
    unfold queue_moved. rewrite <- E. apply (qref_new 0).
  - intros q [[n m]|] o H Hl; [|by destruct o]. destruct o as [o|]; cbn [qv_legal qc_step qv_spec queue_ref] in *.
    + destruct (q_step_refines n q m o H Hl) as (r & q' & m' & E & Hs & H'). exists r, q', (Some (n, m')). split; [done|]. split; [eauto|done].
    + exists (RNat n), q, (Some (n, m)). split; [|done]. pose proof H as (Hst & _). by rewrite (qs_ip _ _ Hst).
Qed.

Definition flags_ref (f : flags) (a : flags_value) : Prop := fref (fst a) f (snd a) \/ (last_seen f = [] /\ a = (0, ∅)).
Lemma flags_ok g : class_ok fc_step new_flags (flags_default g) flags_moved fv_legal fv_spec (fun n => (n, ∅)) (0, ∅) (fun _ => (0, ∅)) flags_ref.
Proof.
  split_and!.
  - intros a [o|id]; cbn [fv_legal]; [|destruct (decide (id < fst a)); tauto]. destruct o; cbn [f_legal]; try tauto.
    + destruct (decide (id < fst a)); tauto.
    + destruct (decide (id < fst a)); tauto.
  - intros n. left. apply fref_new.
  - by right.
  - intros f a _. by right.
  - intros f [n s] o [H|[Hf [= -> ->]]] Hl; cbn [fst snd] in *.
    + destruct o as [o|id]; cbn [fv_legal fc_step fv_spec fst snd] in *.
      * destruct (f_step_refines n f s o H Hl) as (f' & E & H'). rewrite E, bind_S. exists None, f', (n, f_spec s o). split; [done|]. split; [done|]. by left.
      * rewrite (is_set_spec n f s id H Hl), bind_S. eexists _, f, (n, s). split; [done|]. split; [done|]. by left.
    + destruct o as [o|id]; cbn [fv_legal fc_step fv_spec fst snd] in *; [|lia]. destruct o as [id|id|]; cbn [f_legal f_step] in *; [lia|lia|]. rewrite bind_S.
      eexists _, _, _. split; [done|]. split; [done|]. right. unfold reset_all. rewrite Hf. cbv zeta. split; [by destruct (N.eqb _ _)|done].
Qed.

Definition idset_ref (q : idset) (a : idset_value) : Prop := match a with Some (n, s) => sref n q s | None => True end.
Lemma idset_ok asserts g : class_ok (sc_step asserts) new_idset (idset_default g) idset_moved (sv_legal asserts) sv_spec (fun n => Some (n, ∅)) None (fun _ => None) idset_ref.
Proof.
  split_and!.
  - intros [[n s]|] [o|]; cbn [sv_legal]; try tauto. destruct o; cbn [s_legal]; try tauto.
    + destruct (decide (id < n)); tauto.
    + destruct (decide (s = ∅)), (decide (2 <= n)); destruct asserts; try tauto; right; intros [?|[? ?]]; done.
    + destruct (decide (id < n)); tauto.
  - apply sref_new.
  - done.
  - done.
  - intros q [[n s]|] o H Hl; [|by destruct o]. destruct o as [o|]; cbn [sv_legal sc_step sv_spec idset_ref] in *.
    + destruct (s_step_refines asserts n q s o H Hl) as (r & q' & s' & E & Hs & H'). rewrite E, bind_S. exists (inl r), q', (Some (n, s')). split; [done|]. split; [eauto|done].
    + exists (inr n), q, (Some (n, s)). split; [|done]. destruct H as (K & -> & _). done.
Qed.
