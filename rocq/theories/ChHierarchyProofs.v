(** What a sequence of contractions leaves behind: the arcs dumped at each contraction form a
    hierarchy in which every distance is realised by an up-down path. *)
From Verif Require Import Base WalkSpec ChWitnessProofs ChContractProofs.
Ltac Zify.zify_post_hook ::= idtac.

Definition func (E : marcs) : Prop := forall u v w m w' m', E u v w m -> E u v w' m' -> w = w' /\ m = m'.
Definition within (zs : list nat) (E : marcs) : Prop := forall u v w m, E u v w m -> u ∈ zs /\ v ∈ zs.

(** [F] and [B] hold the out- and in-arcs of the nodes [zs] when they are contracted in
    this order, starting with the graph [E]. *)
Inductive contr : list nat -> marcs -> marcs -> marcs -> Prop :=
  | contr_nil (E F B : marcs) : (forall u v w m, ~ F u v w m) -> (forall u v w m, ~ B u v w m) -> contr [] E F B
  | contr_cons z zs (E E' F B F' B' : marcs) :
      func E -> (forall u w m, ~ E u u w m) -> cstep z E E' -> contr zs E' F' B' ->
      (forall u v w m, F u v w m <-> (u = z /\ E z v w m) \/ F' u v w m) ->
      (forall u v w m, B u v w m <-> (u = z /\ E v z w m) \/ B' u v w m) ->
      contr (z :: zs) E F B.

Lemma contr_iff zs E F B F2 B2 : contr zs E F B ->
  (forall u v w m, F2 u v w m <-> F u v w m) -> (forall u v w m, B2 u v w m <-> B u v w m) -> contr zs E F2 B2.
Proof.
  intros H HF HB. inversion H; subst.
  - constructor; intros u v w m; [rewrite HF|rewrite HB]; auto.
  - econstructor; [done|done|done|done| |]; intros u v w m; [rewrite HF|rewrite HB]; auto.
Qed.

Lemma within_step z zs E E' : (forall u w m, ~ E u u w m) -> cstep z E E' -> within (z :: zs) E -> within zs E'.
Proof.
  intros Hnl Hs Hw u v w m HE. destruct (cs_new _ _ _ Hs _ _ _ _ HE) as (Hu & Hv & H).
  assert (u ∈ z :: zs /\ v ∈ z :: zs) as [H1 H2].
  { destruct H as [H|(_ & w1 & m1 & w2 & m2 & H1 & H2 & _)]; [by eapply Hw|]. split; [apply (Hw _ _ _ _ H1)|apply (Hw _ _ _ _ H2)]. }
  apply elem_of_cons in H1 as [?|?]; [done|]. apply elem_of_cons in H2 as [?|?]; [done|]. done.
Qed.

(** Arcs go from earlier to later contracted nodes. *)
Definition before (zs : list nat) (u v : nat) : Prop := exists i j, zs !! i = Some u /\ zs !! j = Some v /\ i < j.
Lemma contr_up zs E F B : contr zs E F B -> within zs E ->
  (forall u v w m, F u v w m -> before zs u v) /\ (forall u v w m, B u v w m -> before zs u v).
Proof.
  induction 1 as [E F B HF HB|z zs E E' F B F' B' Hfun Hnl Hs Hc IH HF HB]; intros Hw.
  { split; intros u v w m H; exfalso; [by eapply HF|by eapply HB]. }
  destruct (IH (within_step _ _ _ _ Hnl Hs Hw)) as [IH1 IH2].
  assert (forall v, v ∈ z :: zs -> v <> z -> before (z :: zs) z v) as Hz.
  { intros v Hv Hne. apply elem_of_cons in Hv as [?|[j Hj]%elem_of_list_lookup]; [done|]. exists 0, (S j). split; [done|]. split; [done|lia]. }
  assert (forall u v, before zs u v -> before (z :: zs) u v) as Hshift.
  { intros u v (i & j & ? & ? & ?). exists (S i), (S j). split; [done|]. split; [done|lia]. }
  split; intros u v w m.
  - rewrite HF. intros [[-> H]|H]; [|eauto]. apply Hz; [apply (Hw _ _ _ _ H)|]. intros ->. by eapply Hnl.
  - rewrite HB. intros [[-> H]|H]; [|eauto]. apply Hz; [apply (Hw _ _ _ _ H)|]. intros ->. by eapply Hnl.
Qed.
Lemma before_l zs u v : before zs u v -> u ∈ zs.
Proof. intros (i & j & H & _). by eapply elem_of_list_lookup_2. Qed.
Lemma before_r zs u v : before zs u v -> v ∈ zs.
Proof. intros (i & j & _ & H & _). by eapply elem_of_list_lookup_2. Qed.

Lemma contr_func zs E F B : contr zs E F B -> within zs E -> NoDup zs -> func F /\ func B.
Proof.
  induction 1 as [E F B HF HB|z zs E E' F B F' B' Hfun Hnl Hs Hc IH HF HB]; intros Hw Hnd.
  { split; intros u v w m w' m' H; exfalso; [by eapply HF|by eapply HB]. }
  apply NoDup_cons in Hnd as [Hz Hnd]. pose proof (within_step _ _ _ _ Hnl Hs Hw) as Hw'.
  destruct (IH Hw' Hnd) as [IH1 IH2]. destruct (contr_up _ _ _ _ Hc Hw') as [Hu1 Hu2].
  split; intros u v w m w' m'.
  - rewrite !HF. intros [[-> H]|H] [[Heq H']|H'].
    + by eapply Hfun.
    + exfalso. apply Hz. eapply before_l. eauto.
    + subst. exfalso. apply Hz. eapply before_l. eauto.
    + by eapply IH1.
  - rewrite !HB. intros [[-> H]|H] [[Heq H']|H'].
    + by eapply Hfun.
    + exfalso. apply Hz. eapply before_l. eauto.
    + subst. exfalso. apply Hz. eapply before_l. eauto.
    + by eapply IH2.
Qed.

(** Every walk has an up-down path that is not longer. *)
Lemma upstar_cons (A : warcs) u x v w L : A u x w -> upstar A x v L -> upstar A u v (w + L)%N.
Proof.
  intros H H2. eapply upstar_app; [|exact H2]. rewrite <- (N.add_0_l w). econstructor; [constructor|done].
Qed.
Lemma dw_first E u v L : u <> v -> dist_walk E u v L -> exists x w L', E u x w /\ dist_walk E x v L' /\ (w + L' = L)%N.
Proof.
  intros Hne [[? _]|[k H]]; [done|]. inversion H as [? ? w Hw|? x ? w L' k' Hw _ Hr]; subst.
  - exists v, L, 0%N. split; [done|]. split; [apply dw_refl|lia].
  - exists x, w, L'. split; [done|]. split; [right; by exists k'|done].
Qed.
Lemma dw_last E u v L : u <> v -> dist_walk E u v L -> exists x w L', E x v w /\ dist_walk E u x L' /\ (L' + w = L)%N.
Proof.
  intros Hne H%dw_rev. destruct (dw_first (rev_arcs E) v u L) as (x & w & L' & H1 & H2%dw_rev' & H3); [congruence|done|].
  exists x, w, L'. split; [done|]. split; [done|]. lia.
Qed.
Lemma contr_complete zs E F B : contr zs E F B -> within zs E ->
  forall u v L, u ∈ zs -> v ∈ zs -> dist_walk (ew E) u v L ->
  exists x L1 L2, (L1 + L2 <= L)%N /\ upstar (ew F) u x L1 /\ upstar (ew B) v x L2.
Proof.
  induction 1 as [E F B HF HB|z zs E E' F B F' B' Hfun Hnl Hs Hc IH HF HB]; intros Hw u v L Hu Hv Hd.
  { by apply elem_of_nil in Hu. }
  pose proof (within_step _ _ _ _ Hnl Hs Hw) as Hw'.
  assert (forall u v L, u <> z -> v <> z -> u ∈ z :: zs -> v ∈ z :: zs -> dist_walk (ew E) u v L ->
    exists x L1 L2, (L1 + L2 <= L)%N /\ upstar (ew F) u x L1 /\ upstar (ew B) v x L2) as Hgen.
  { clear u v L Hu Hv Hd. intros u v L Huz Hvz Hu Hv Hd. apply elem_of_cons in Hu as [?|Hu]; [done|]. apply elem_of_cons in Hv as [?|Hv]; [done|].
    destruct (cs_walk _ _ _ Hs u v L Huz Hvz Hd) as (L' & HL & Hd').
    destruct (IH Hw' u v L' Hu Hv Hd') as (x & L1 & L2 & HLe & Hup & Hdn). exists x, L1, L2. split; [lia|].
    split; [eapply upstar_mono; [|exact Hup]|eapply upstar_mono; [|exact Hdn]]; intros a b w (m & Hm); exists m; [rewrite HF|rewrite HB]; by right. }
  destruct (decide (u = v)) as [<-|Huv].
  { exists u, 0%N, 0%N. split; [lia|]. split; constructor. }
  destruct (decide (u = z)) as [->|Huz]; [|destruct (decide (v = z)) as [->|Hvz]].
  - destruct (dw_first _ _ _ _ Huv Hd) as (y & w & L' & (m & Hm) & Hd' & HL).
    destruct (Hgen y v L') as (x & L1 & L2 & HLe & Hup & Hdn); [by intros ->; eapply Hnl|congruence|apply (Hw _ _ _ _ Hm)|done|done|].
    exists x, (w + L1)%N, L2. split; [lia|]. split; [|done]. eapply upstar_cons; [|done]. exists m. rewrite HF. by left.
  - destruct (dw_last _ _ _ _ Huv Hd) as (y & w & L' & (m & Hm) & Hd' & HL).
    destruct (Hgen u y L') as (x & L1 & L2 & HLe & Hup & Hdn); [done|by intros ->; eapply Hnl|done|apply (Hw _ _ _ _ Hm)|done|].
    exists x, L1, (w + L2)%N. split; [lia|]. split; [done|]. eapply upstar_cons; [|done]. exists m. rewrite HB. by left.
  - by apply Hgen.
Qed.

(** Every arc is an arc of the graph or made of two arcs at its mid node. *)
Definition just (F B : marcs) (G : warcs) (u v : nat) (w : N) (m : option nat) : Prop :=
  match m with
  | None => G u v w
  | Some z => exists w1 m1 w2 m2, B z u w1 m1 /\ F z v w2 m2 /\ w = (w1 + w2)%N
  end.
Lemma just_mono (F B F' B' : marcs) G u v w m :
  (forall u v w m, F u v w m -> F' u v w m) -> (forall u v w m, B u v w m -> B' u v w m) -> just F B G u v w m -> just F' B' G u v w m.
Proof. intros H1 H2. destruct m as [z|]; [|done]. cbn. intros (w1 & m1 & w2 & m2 & ? & ? & ?). exists w1, m1, w2, m2. auto. Qed.
Lemma contr_just_acc zs E F B G : contr zs E F B -> forall FA BA : marcs,
  (forall u v w m, E u v w m -> just FA BA G u v w m) ->
  (forall u v w m, F u v w m -> just (fun u v w m => FA u v w m \/ F u v w m) (fun u v w m => BA u v w m \/ B u v w m) G u v w m) /\
  (forall u v w m, B u v w m -> just (fun u v w m => FA u v w m \/ F u v w m) (fun u v w m => BA u v w m \/ B u v w m) G v u w m).
Proof.
  induction 1 as [E F B HF HB|z zs E E' F B F' B' Hfun Hnl Hs Hc IH HF HB]; intros FA BA HE.
  { split; intros u v w m H; exfalso; [by eapply HF|by eapply HB]. }
  destruct (IH (fun u v w m => FA u v w m \/ (u = z /\ E z v w m)) (fun u v w m => BA u v w m \/ (u = z /\ E v z w m))) as [IH1 IH2].
  { intros u v w m H. destruct (cs_new _ _ _ Hs _ _ _ _ H) as (_ & _ & [H0|(-> & w1 & m1 & w2 & m2 & H1 & H2 & ->)]).
    - eapply just_mono; [| |by apply HE]; cbn; auto.
    - cbn. exists w1, m1, w2, m2. auto. }
  split; intros u v w m.
  - rewrite HF. intros [[-> H]|H].
    + eapply just_mono; [| |by apply HE]; cbn; auto.
    + eapply just_mono; [| |by apply IH1]; cbn; intros *; rewrite ?HF, ?HB; naive_solver.
  - rewrite HB. intros [[-> H]|H].
    + eapply just_mono; [| |by apply HE]; cbn; auto.
    + eapply just_mono; [| |by apply IH2]; cbn; intros *; rewrite ?HF, ?HB; naive_solver.
Qed.
Lemma contr_just zs E F B (G : warcs) : contr zs E F B -> (forall u v w m, E u v w m -> m = None /\ G u v w) ->
  (forall u v w m, F u v w m -> just F B G u v w m) /\ (forall u v w m, B u v w m -> just F B G v u w m).
Proof.
  intros Hc HE. destruct (contr_just_acc zs E F B G Hc (fun _ _ _ _ => False) (fun _ _ _ _ => False)) as [H1 H2].
  { intros u v w m H. destruct (HE _ _ _ _ H) as [-> ?]. done. }
  split; intros u v w m H; [specialize (H1 _ _ _ _ H)|specialize (H2 _ _ _ _ H)]; (eapply just_mono; [| |done]); cbn; naive_solver.
Qed.
(** The mid node has been contracted before both end points. *)
Lemma just_before zs E F B G u v w z : contr zs E F B -> within zs E -> just F B G u v w (Some z) -> before zs z u /\ before zs z v.
Proof.
  intros Hc Hw (w1 & m1 & w2 & m2 & H1 & H2 & _). destruct (contr_up _ _ _ _ Hc Hw) as [Hu1 Hu2]. eauto.
Qed.
