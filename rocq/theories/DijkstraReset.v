(** A reset Dijkstra object is indistinguishable from a new one. *)
From Verif Require Import Base UtilSpec GraphSpec PathSpec PermutationProofs
  IdQueueModel IdQueueSpec IdQueueProofs IdSetModel IdSetSpec IdSetProofs DijkstraModel.
Ltac Zify.zify_post_hook ::= idtac.

Lemma F2_bind {A B C D} (R : A -> B -> Prop) (S : C -> D -> Prop) (a : option A) (b : option B) f g :
  option_Forall2 R a b -> (forall x y, R x y -> option_Forall2 S (f x) (g y)) ->
  option_Forall2 S (a ≫= f) (b ≫= g).
Proof. intros [x y H|] Hf; cbn; [by apply Hf|constructor]. Qed.
Lemma F2_eq {A} (R : A -> A -> Prop) (a b : option A) : a = b -> (forall x, R x x) -> option_Forall2 R a b.
Proof. intros -> H. destruct b; constructor. apply H. Qed.

Lemma F2_Some {A B} (R : A -> B -> Prop) a b : option_Forall2 R (Some a) (Some b) -> R a b.
Proof. intros H. by inversion H. Qed.

Lemma for_n_sim {S T} (R : S -> T -> Prop) b1 b2 k i s t :
  R s t -> (forall j s t, i <= j < i + k -> R s t -> option_Forall2 R (b1 j s) (b2 j t)) ->
  option_Forall2 R (for_n k i b1 s) (for_n k i b2 t).
Proof.
  revert i s t. induction k as [|k IH]; intros i s t HR Hb; cbn [for_n]; [by constructor|].
  eapply F2_bind; [apply Hb; [lia|done]|]. intros s' t' H'. apply IH; [done|]. intros j s1 t1 Hj. apply Hb. lia.
Qed.
Lemma for_range_sim {S T} (R : S -> T -> Prop) b1 b2 lo hi s t :
  R s t -> (forall j s t, lo <= j < hi -> R s t -> option_Forall2 R (b1 j s) (b2 j t)) ->
  option_Forall2 R (for_range lo hi b1 s) (for_range lo hi b2 t).
Proof. intros HR Hb. apply for_n_sim; [done|]. intros j s' t' Hj. apply Hb. lia. Qed.

(** Two queues that agree on the live part of the heap array ([k >= hs]). *)
Record qeq (hs k : nat) (q1 q2 : queue) : Prop := {
  e_ip : id_pos q1 = id_pos q2;
  e_s1 : heap_size q1 = hs;
  e_s2 : heap_size q2 = hs;
  e_len : length (heap q1) = length (heap q2);
  e_at : forall i, i < k -> heap q1 !! i = heap q2 !! i }.

Lemma wr_F2 {A} (l1 l2 : list A) i x : length l1 = length l2 ->
  option_Forall2 (fun a b => a = <[i:=x]> l1 /\ b = <[i:=x]> l2) (wr l1 i x) (wr l2 i x).
Proof. intros H. unfold wr. rewrite H. case_decide; by constructor. Qed.

Lemma insert_agree {A} (l1 l2 : list A) i x k : length l1 = length l2 ->
  (forall j, j < k -> l1 !! j = l2 !! j) -> forall j, j < k \/ j = i -> <[i:=x]> l1 !! j = <[i:=x]> l2 !! j.
Proof.
  intros Hl Hk j Hj. destruct (decide (i = j)) as [->|Hne].
  - destruct (decide (j < length l1)).
    + rewrite !list_lookup_insert by lia. done.
    + rewrite !list_insert_ge by lia. rewrite !lookup_ge_None_2 by lia. done.
  - rewrite !list_lookup_insert_ne by done. apply Hk. lia.
Qed.

Lemma swap_sim hs k q1 q2 i j : qeq hs k q1 q2 -> i < k -> j < k ->
  option_Forall2 (qeq hs k) (swap_entries q1 i j) (swap_entries q2 i j).
Proof.
  intros [Hip H1 H2 Hl Hat] Hi Hj. unfold swap_entries. rewrite (Hat i Hi), (Hat j Hj), Hip, H1, H2.
  destruct (heap q2 !! i) as [x|]; [|constructor]. rewrite !bind_S.
  destruct (heap q2 !! j) as [y|]; [|constructor]. rewrite !bind_S.
  eapply F2_bind; [by apply wr_F2|]. intros h1 h2 [-> ->].
  eapply F2_bind; [apply wr_F2; by rewrite !insert_length|]. intros h1 h2 [-> ->].
  destruct (id_pos q2 !! y.1) as [a|]; [|constructor]. rewrite !bind_S.
  destruct (id_pos q2 !! x.1) as [b|]; [|constructor]. rewrite !bind_S.
  destruct (wr (id_pos q2) y.1 b) as [ip|]; [|constructor]. rewrite !bind_S.
  destruct (wr ip x.1 a) as [ip'|]; [|constructor]. rewrite !bind_S.
  constructor. split; cbn; try done.
  - by rewrite !insert_length.
  - intros l Hlk. eapply insert_agree; [by rewrite !insert_length| |left; exact Hlk].
    intros l' Hl'. eapply insert_agree; [done|exact Hat|by left].
Qed.

Lemma move_up_sim fuel : forall hs k q1 q2 pos, qeq hs k q1 q2 -> pos < k ->
  option_Forall2 (qeq hs k) (move_up_in_tree fuel q1 pos) (move_up_in_tree fuel q2 pos).
Proof.
  induction fuel as [|fuel IH]; intros hs k q1 q2 pos Hq Hpos; cbn [move_up_in_tree].
  - case_decide; by constructor.
  - case_decide; [by constructor|].
    assert ((pos - 1) / 4 < k) as Hp by (pose proof (Nat.div_le_upper_bound (pos - 1) 4 pos); lia).
    rewrite (e_at _ _ _ _ Hq _ Hp), (e_at _ _ _ _ Hq _ Hpos).
    destruct (heap q2 !! ((pos - 1) / 4)) as [x|]; [|constructor]. rewrite !bind_S.
    destruct (heap q2 !! pos) as [y|]; [|constructor]. rewrite !bind_S.
    eapply F2_bind; [|intros q1' q2' Hq'; by apply IH].
    case_decide; [by apply swap_sim|by constructor].
Qed.

Lemma smallest_child_sim hs k q1 q2 pos : qeq hs k q1 q2 -> hs <= k -> 4 * pos + 1 < hs ->
  option_Forall2 (fun a b => a = b /\ a < hs) (smallest_child q1 pos) (smallest_child q2 pos).
Proof.
  intros Hq Hk Hpos. unfold smallest_child. rewrite (e_s1 _ _ _ _ Hq), (e_s2 _ _ _ _ Hq).
  apply for_range_sim; [done|]. intros j s t Hj [-> Ht].
  rewrite (e_at _ _ _ _ Hq t) by lia. rewrite (e_at _ _ _ _ Hq j) by lia.
  destruct (heap q2 !! t) as [x|]; [|constructor]. rewrite !bind_S.
  destruct (heap q2 !! j) as [y|]; [|constructor]. rewrite !bind_S.
  constructor. split; [done|]. case_decide; lia.
Qed.

Lemma move_down_sim fuel : forall hs k q1 q2 pos, qeq hs k q1 q2 -> hs <= k ->
  option_Forall2 (qeq hs k) (move_down_in_tree fuel q1 pos) (move_down_in_tree fuel q2 pos).
Proof.
  induction fuel as [|fuel IH]; intros hs k q1 q2 pos Hq Hk; cbn [move_down_in_tree]; [constructor|].
  rewrite (e_s1 _ _ _ _ Hq), (e_s2 _ _ _ _ Hq). case_decide as Hc; [by constructor|].
  eapply F2_bind; [apply (smallest_child_sim hs k); [done|done|lia]|]. intros s t [-> Ht].
  rewrite (e_at _ _ _ _ Hq t) by lia. rewrite (e_at _ _ _ _ Hq pos) by lia.
  destruct (heap q2 !! t) as [x|]; [|constructor]. rewrite !bind_S.
  destruct (heap q2 !! pos) as [y|]; [|constructor]. rewrite !bind_S.
  case_decide; [by constructor|].
  eapply F2_bind; [apply swap_sim; [done|lia|lia]|]. intros q1' q2' Hq'. by apply IH.
Qed.

Definition qsim (q1 q2 : queue) : Prop := qeq (heap_size q1) (heap_size q1) q1 q2.
Lemma qeq_qsim hs k q1 q2 : qeq hs k q1 q2 -> hs <= k -> qsim q1 q2.
Proof. intros [? H ? ? Hat] Hk. rewrite <- H in *. split; try done. intros i Hi. apply Hat. lia. Qed.
Lemma qsim_refl q : qsim q q.
Proof. by split. Qed.

Lemma contains_sim q1 q2 id : qsim q1 q2 -> contains_id q1 id = contains_id q2 id.
Proof. intros H. unfold contains_id. by rewrite (e_ip _ _ _ _ H). Qed.
Lemma empty_sim q1 q2 : qsim q1 q2 -> q_empty q1 = q_empty q2.
Proof. intros H. unfold q_empty. by rewrite (e_s2 _ _ _ _ H). Qed.

Lemma push_sim q1 q2 p : qsim q1 q2 -> option_Forall2 qsim (push q1 p) (push q2 p).
Proof.
  intros Hq. unfold push. rewrite (contains_sim _ _ _ Hq).
  destruct (contains_id q2 p.1) as [c|]; [|constructor]. rewrite !bind_S.
  destruct (chk (negb c)); [|constructor]. rewrite !bind_S. cbv zeta.
  rewrite (e_s2 _ _ _ _ Hq), (e_ip _ _ _ _ Hq). set (hs := heap_size q1).
  eapply F2_bind; [apply wr_F2, Hq|]. intros h1 h2 [-> ->].
  destruct (wr (id_pos q2) p.1 (Some hs)) as [ip|]; [|constructor]. rewrite !bind_S.
  assert (qeq (S hs) (S hs) (mkQueue ip (<[hs:=p]> (heap q1)) (S hs)) (mkQueue ip (<[hs:=p]> (heap q2)) (S hs))) as H.
  { split; cbn; try done.
    - rewrite !insert_length. apply Hq.
    - intros i Hi. eapply insert_agree; [apply Hq|apply Hq|]. fold hs. lia. }
  pose proof (move_up_sim hs (S hs) (S hs) _ _ hs H ltac:(lia)) as Hm.
  destruct Hm as [a b Hab|]; constructor. by eapply qeq_qsim.
Qed.

Lemma pop_sim q1 q2 : qsim q1 q2 ->
  option_Forall2 (fun a b => fst a = fst b /\ qsim (snd a) (snd b)) (pop q1) (pop q2).
Proof.
  intros Hq. unfold pop. rewrite (empty_sim _ _ Hq). 
  destruct (q_empty q2) eqn:Ee; [constructor|]. cbn [negb chk]. rewrite !bind_S. cbv zeta.
  assert (0 < heap_size q1) as Hpos.
  { unfold q_empty in Ee. rewrite (e_s2 _ _ _ _ Hq) in Ee. apply bool_decide_eq_false in Ee. lia. }
  rewrite (e_s2 _ _ _ _ Hq), (e_ip _ _ _ _ Hq). set (hs := heap_size q1 - 1).
  rewrite (e_at _ _ _ _ Hq 0) by lia. rewrite (e_at _ _ _ _ Hq hs) by lia.
  destruct (heap q2 !! 0) as [x|]; [|constructor]. rewrite !bind_S.
  destruct (heap q2 !! hs) as [y|]; [|constructor]. rewrite !bind_S.
  eapply F2_bind; [apply wr_F2, Hq|]. intros h1 h2 [-> ->].
  eapply F2_bind; [apply wr_F2; rewrite !insert_length; apply Hq|]. intros h1 h2 [-> ->].
  set (g1 := <[hs:=x]> (<[0:=y]> (heap q1))). set (g2 := <[hs:=x]> (<[0:=y]> (heap q2))).
  assert (length g1 = length g2) as Lg by (unfold g1, g2; rewrite !insert_length; apply Hq).
  assert (forall i, i < S hs -> g1 !! i = g2 !! i) as Hg.
  { intros i Hi. eapply insert_agree; [rewrite !insert_length; apply Hq| |left; exact Hi].
    intros l Hl. eapply insert_agree; [apply Hq|apply Hq|]. lia. }
  rewrite (Hg 0) by lia. destruct (g2 !! 0) as [e0|]; [|constructor]. rewrite !bind_S.
  destruct (wr (id_pos q2) e0.1 (Some 0)) as [ip|]; [|constructor]. rewrite !bind_S.
  rewrite (Hg hs) by lia. destruct (g2 !! hs) as [e1|]; [|constructor]. rewrite !bind_S.
  destruct (wr ip e1.1 None) as [ip'|]; [|constructor]. rewrite !bind_S.
  assert (qeq hs (S hs) (mkQueue ip' g1 hs) (mkQueue ip' g2 hs)) as H by (by split).
  eapply F2_bind; [apply (move_down_sim (S hs) hs (S hs)); [done|lia]|]. intros a b Hab.
  rewrite (e_at _ _ _ _ Hab hs) by lia. destruct (heap b !! hs) as [e|]; [|constructor]. rewrite !bind_S.
  constructor. split; [done|]. eapply qeq_qsim; [exact Hab|lia].
Qed.

Lemma decrease_sim n m q1 q2 id k : qsim q1 q2 -> qref n q1 m ->
  option_Forall2 (fun a b => fst a = fst b /\ qsim (snd a) (snd b)) (decrease_key q1 (id, k)) (decrease_key q2 (id, k)).
Proof.
  intros Hq (Hs & _ & _). unfold decrease_key. cbn [fst snd]. rewrite <- (e_ip _ _ _ _ Hq).
  destruct (id_pos q1 !! id) as [[pos|]|] eqn:Ep; [|constructor|constructor]. rewrite !bind_S.
  apply (qs_iff _ _ Hs) in Ep as [Hpos _].
  rewrite (e_at _ _ _ _ Hq pos) by done. destruct (heap q2 !! pos) as [e|]; [|constructor]. rewrite !bind_S.
  case_decide; [|by constructor].
  rewrite (e_s2 _ _ _ _ Hq). set (hs := heap_size q1) in *.
  eapply F2_bind; [apply wr_F2, Hq|]. intros h1 h2 [-> ->].
  eapply F2_bind; [apply (move_up_sim pos hs hs)|].
  - split; cbn; try done.
    + rewrite !insert_length. apply Hq.
    + intros i Hi. eapply insert_agree; [apply Hq|apply Hq|by left].
  - done.
  - intros a b Hab. constructor. split; [done|]. by eapply qeq_qsim.
Qed.

(** Two objects that can no longer be told apart. [P] are the settled nodes, [m] is the
    content of the queue. *)
Definition wf_graph (g : graph) : Prop :=
  csr (node_count g) (g_first_out g) (g_head g) /\ tails_ok (g_first_out g) (g_tail g) (g_head g).

Record same_state (n : nat) (tl : list nat) (P : gset nat) (p1 p2 : list (option nat)) (q1 q2 : queue) (m : gmap nat N) : Prop := {
  s_q1 : qref n q1 m; s_q2 : qref n q2 m; s_q : qsim q1 q2;
  s_l1 : length p1 = n; s_l2 : length p2 = n;
  s_p : forall v, v ∈ P \/ is_Some (m !! v) -> p1 !! v = p2 !! v;
  s_closed : forall v a, v ∈ P \/ is_Some (m !! v) -> p1 !! v = Some (Some a) -> exists u, tl !! a = Some u /\ u ∈ P }.

Record dsim (d1 d2 : dijkstra) : Prop := {
  z_g : d_graph d1 = d_graph d2;
  z_wf : wf_graph (d_graph d1);
  z_l1 : length (tentative d1) = node_count (d_graph d1);
  z_l2 : length (tentative d2) = node_count (d_graph d1);
  z_rest : exists P m, fref (node_count (d_graph d1)) (was_popped d1) P /\ fref (node_count (d_graph d1)) (was_popped d2) P /\
    (forall v, v ∈ P -> tentative d1 !! v = tentative d2 !! v) /\
    same_state (node_count (d_graph d1)) (g_tail (d_graph d1)) P (pred d1) (pred d2) (d_queue d1) (d_queue d2) m }.

Lemma same_state_set n tl P p1 p2 q1 q2 m q1' q2' m' h x :
  same_state n tl P p1 p2 q1 q2 m -> h < n ->
  qref n q1' m' -> qref n q2' m' -> qsim q1' q2' ->
  (forall v, is_Some (m' !! v) -> v = h \/ is_Some (m !! v)) ->
  (match x with None => True | Some a => exists u, tl !! a = Some u /\ u ∈ P end) ->
  same_state n tl P (<[h:=x]> p1) (<[h:=x]> p2) q1' q2' m'.
Proof.
  intros S Hh H1 H2 Hq Hm Hx. split; try done.
  - rewrite insert_length. apply S.
  - rewrite insert_length. apply S.
  - intros v Hv. destruct (decide (v = h)) as [->|Hne].
    + rewrite !list_lookup_insert by (rewrite ?(s_l1 _ _ _ _ _ _ _ _ S), ?(s_l2 _ _ _ _ _ _ _ _ S); done). done.
    + rewrite !list_lookup_insert_ne by done. apply S. destruct Hv as [?|Hv]; [by left|right].
      destruct (Hm _ Hv); done.
  - intros v a Hv. destruct (decide (v = h)) as [->|Hne].
    + rewrite list_lookup_insert by (rewrite (s_l1 _ _ _ _ _ _ _ _ S); done). intros [= ->]. done.
    + rewrite list_lookup_insert_ne by done. apply S. destruct Hv as [?|Hv]; [by left|right].
      destruct (Hm _ Hv); done.
Qed.

Lemma relax_sim g w f1 f2 P key a x st1 st2 :
  wf_graph g -> fref (node_count g) f1 P -> fref (node_count g) f2 P -> x ∈ P -> out_arc (g_first_out g) x a ->
  (exists m, same_state (node_count g) (g_tail g) P (fst st1) (fst st2) (snd st1) (snd st2) m) ->
  option_Forall2 (fun st1 st2 => exists m, same_state (node_count g) (g_tail g) P (fst st1) (fst st2) (snd st1) (snd st2) m)
    (relax_arc g f1 w key a st1) (relax_arc g f2 w key a st2).
Proof.
  intros [Hcsr Htl] Hf1 Hf2 Hx Ha. destruct st1 as [p1 q1], st2 as [p2 q2]. cbn [fst snd]. intros (m & S).
  destruct (out_arc_lt _ _ _ _ _ Hcsr Ha) as [_ Hlt].
  unfold relax_arc. destruct (g_head g !! a) as [h|] eqn:Eh; [|constructor]. rewrite !bind_S.
  assert (h < node_count g) as Hh by (eapply (csr_head _ _ _ Hcsr), elem_of_list_lookup_2, Eh).
  rewrite (is_set_spec _ _ _ _ Hf1 Hh), (is_set_spec _ _ _ _ Hf2 Hh), !bind_S.
  case_bool_decide; [constructor; by exists m|].
  destruct (w a key) as [wt|]; [|constructor]. rewrite !bind_S.
  case_decide; [|constructor; by exists m].
  assert (exists u, g_tail g !! a = Some u /\ u ∈ P) as Htail by (exists x; split; [by apply Htl|done]).
  rewrite (contains_id_spec _ _ _ _ (s_q1 _ _ _ _ _ _ _ _ S) Hh), (contains_id_spec _ _ _ _ (s_q2 _ _ _ _ _ _ _ _ S) Hh), !bind_S.
  case_bool_decide as Hc.
  - destruct Hc as [k0 Hk0]. set (k := ((key + wt) mod word)%N).
    destruct (decrease_key_spec _ _ _ h k k0 (s_q1 _ _ _ _ _ _ _ _ S) Hk0) as (q1' & E1 & Hq1').
    destruct (decrease_key_spec _ _ _ h k k0 (s_q2 _ _ _ _ _ _ _ _ S) Hk0) as (q2' & E2 & Hq2').
    pose proof (decrease_sim _ _ _ _ h k (s_q _ _ _ _ _ _ _ _ S) (s_q1 _ _ _ _ _ _ _ _ S)) as Hsim.
    rewrite E1, E2 in *. apply F2_Some in Hsim as [_ Hs]. cbn [fst snd] in Hs. rewrite !bind_S.
    case_bool_decide.
    + rewrite decide_True in Hq1', Hq2' by done.
      rewrite (wr_Some p1), (wr_Some p2), !bind_S by (rewrite ?(s_l1 _ _ _ _ _ _ _ _ S), ?(s_l2 _ _ _ _ _ _ _ _ S); done).
      constructor. eexists. cbn [fst snd]. eapply same_state_set; try done.
      intros v [? [[-> _]|[_ ?]]%lookup_insert_Some]; [by left|right; by eexists].
    + rewrite decide_False in Hq1', Hq2' by done. constructor. exists m. cbn [fst snd].
      destruct S. by split.
  - assert (m !! h = None) as Hnone by (destruct (m !! h); [destruct Hc; eauto|done]).
    set (k := ((key + wt) mod word)%N).
    destruct (push_spec _ _ _ h k (s_q1 _ _ _ _ _ _ _ _ S) Hh Hnone) as (q1' & E1 & Hq1').
    destruct (push_spec _ _ _ h k (s_q2 _ _ _ _ _ _ _ _ S) Hh Hnone) as (q2' & E2 & Hq2').
    pose proof (push_sim _ _ (h, k) (s_q _ _ _ _ _ _ _ _ S)) as Hsim.
    rewrite E1, E2 in *. apply F2_Some in Hsim. rewrite !bind_S.
    rewrite (wr_Some p1), (wr_Some p2), !bind_S by (rewrite ?(s_l1 _ _ _ _ _ _ _ _ S), ?(s_l2 _ _ _ _ _ _ _ _ S); done).
    constructor. eexists. cbn [fst snd]. eapply same_state_set; try done.
    intros v [? [[-> _]|[_ ?]]%lookup_insert_Some]; [by left|right; by eexists].
Qed.

Definition out_sim {A} (a b : A * dijkstra) : Prop := fst a = fst b /\ dsim (snd a) (snd b).

Lemma settle_sim d1 d2 w : dsim d1 d2 -> option_Forall2 out_sim (settle d1 w) (settle d2 w).
Proof.
  intros [Hg Hwf Hl1 Hl2 (P & m & Hf1 & Hf2 & Htd & S)]. set (n := node_count (d_graph d1)) in *.
  unfold settle. rewrite <- Hg.
  destruct (decide (m = ∅)) as [->|Hne].
  { unfold pop. rewrite (q_empty_spec _ _ _ (s_q1 _ _ _ _ _ _ _ _ S)), (q_empty_spec _ _ _ (s_q2 _ _ _ _ _ _ _ _ S)).
    rewrite bool_decide_eq_true_2 by done. cbn. constructor. }
  destruct (pop_spec _ _ _ (s_q1 _ _ _ _ _ _ _ _ S) Hne) as (x & k & q1' & E1 & [Hx _] & Hq1').
  destruct (pop_spec _ _ _ (s_q2 _ _ _ _ _ _ _ _ S) Hne) as (x2 & k2 & q2' & E2 & _ & Hq2').
  pose proof (pop_sim _ _ (s_q _ _ _ _ _ _ _ _ S)) as Hsim. rewrite E1, E2 in *.
  apply F2_Some in Hsim as [H12 Hs]. cbn [fst snd] in H12, Hs. injection H12 as <- <-. rewrite !bind_S.
  assert (x < n) as Hxn.
  { destruct (s_q1 _ _ _ _ _ _ _ _ S) as (Hst & _ & Hmk). rewrite Hmk in Hx.
    apply (qkey_Some n) in Hx as (pos & Hp & _); [|done]. apply lookup_lt_Some in Hp. rewrite (qs_ip _ _ Hst) in Hp. done. }
  rewrite (wr_Some (tentative d1)), (wr_Some (tentative d2)), !bind_S by lia.
  destruct (f_step_refines n _ _ (FSet x) Hf1 Hxn) as (f1 & Ef1 & Hf1').
  destruct (f_step_refines n _ _ (FSet x) Hf2 Hxn) as (f2 & Ef2 & Hf2'). cbn [f_step f_spec] in *.
  rewrite Ef1, Ef2, !bind_S.
  destruct (g_first_out (d_graph d1) !! x) as [lo|] eqn:Elo; [|constructor]. rewrite !bind_S.
  destruct (g_first_out (d_graph d1) !! Datatypes.S x) as [hi|] eqn:Ehi; [|constructor]. rewrite !bind_S.
  eapply F2_bind.
  - apply (for_range_sim (fun st1 st2 => exists m, same_state n (g_tail (d_graph d1)) ({[x]} ∪ P) (fst st1) (fst st2) (snd st1) (snd st2) m)).
    + exists (delete x m). cbn [fst snd]. destruct S as [H1 H2 H3 H4 H5 H6 H7]. split; try done.
      * intros v Hv. apply H6. destruct Hv as [[->%elem_of_singleton|?]%elem_of_union|[? [_ ?]%lookup_delete_Some]]; eauto.
      * intros v a Hv Hp. destruct (H7 v a) as (u & Hu & HuP); [|done|exists u; set_solver].
        destruct Hv as [[->%elem_of_singleton|?]%elem_of_union|[? [_ ?]%lookup_delete_Some]]; eauto.
    + intros j st1 st2 Hj HS. apply (relax_sim _ w f1 f2 _ k j x); [done|done|done|set_solver| |done].
      exists lo, hi. done.
  - intros [p1 q1] [p2 q2] (m' & S'). constructor. cbn [fst snd] in S'.
    split; [done|]. split; cbn [d_graph tentative pred was_popped d_queue fst snd]; try done.
    + by rewrite insert_length.
    + by rewrite insert_length.
    + exists ({[x]} ∪ P), m'. split; [done|]. split; [done|]. split; [|done].
      intros v Hv. destruct (decide (v = x)) as [->|Hvx].
      * rewrite !list_lookup_insert by lia. done.
      * rewrite !list_lookup_insert_ne by done. apply Htd. set_solver.
Qed.

Lemma clear_empty n q m : qref n q m -> exists q', clear q = Some q' /\ qref n q' ∅ /\ qsim q' (new_queue n).
Proof.
  intros Hq. destruct (clear_spec n q m Hq) as (q' & E & Hq'). exists q'. split; [done|]. split; [done|].
  pose proof (qref_size _ _ _ Hq') as Hsz. rewrite map_size_empty in Hsz.
  pose proof Hq' as (Hs & _ & _). pose proof (qref_new n) as (Hs2 & _ & _).
  assert (id_pos q' = id_pos (new_queue n)) as Hip.
  { apply list_eq. intros i. destruct (decide (i < n)) as [Hi|Hi].
    - destruct (lookup_lt_is_Some_2 (id_pos q') i) as [p Hp]; [rewrite (qs_ip _ _ Hs); done|].
      destruct p as [pos|]; [apply (qs_iff _ _ Hs) in Hp as [? _]; lia|]. rewrite Hp. symmetry. cbn. by apply lookup_replicate.
    - rewrite !lookup_ge_None_2; [done| |]; rewrite ?(qs_ip _ _ Hs), ?(qs_ip _ _ Hs2); lia. }
  split; try done.
  - rewrite (qs_heap _ _ Hs), (qs_heap _ _ Hs2). done.
  - intros i Hi. lia.
Qed.

Lemma same_state_empty n tl p1 p2 q1 q2 :
  qref n q1 ∅ -> qref n q2 ∅ -> qsim q1 q2 -> length p1 = n -> length p2 = n -> same_state n tl ∅ p1 p2 q1 q2 ∅.
Proof.
  intros. split; try done.
  - intros v [H'|[? H']]; [set_solver|by rewrite lookup_empty in H'].
  - intros v a [H'|[? H']]; [set_solver|by rewrite lookup_empty in H'].
Qed.

Lemma qsim_sym q1 q2 : qsim q1 q2 -> qsim q2 q1.
Proof. intros [H1 H2 H3 H4 H5]. unfold qsim. rewrite H3. split; try done. intros i Hi. symmetry. by apply H5. Qed.
Lemma qsim_trans q1 q2 q3 : qsim q1 q2 -> qsim q2 q3 -> qsim q1 q3.
Proof.
  intros [H1 H2 H3 H4 H5] [K1 K2 K3 K4 K5]. rewrite H3 in *. split; try congruence.
  intros i Hi. rewrite H5 by done. by apply K5.
Qed.

Local Ltac triv := first [done|apply qref_new|apply qsim_refl|apply replicate_length
  |match goal with S : same_state _ _ _ _ _ _ _ _ |- _ => first [apply (s_l1 _ _ _ _ _ _ _ _ S)|apply (s_l2 _ _ _ _ _ _ _ _ S)] end
  |eapply qsim_trans; [done|by apply qsim_sym]|auto].

(** Resetting from any valid state gives a state like a new object's. *)
Lemma reset_graph_new d g : dsim d d -> wf_graph g ->
  exists d', d_reset_graph d g = Some d' /\ dsim d' (new_dijkstra g) /\ dsim d' d'.
Proof.
  intros [_ Hwf Hl1 _ (P & m & Hf & _ & _ & S)] Hg. unfold d_reset_graph.
  set (n := node_count g).
  assert (Hnew : same_state n (g_tail g) ∅ (replicate n (Some 0)) (replicate n (Some 0)) (new_queue n) (new_queue n) ∅).
  { apply same_state_empty; triv. }
  case_decide as Hlen.
  - assert (node_count (d_graph d) = n) as Hn by (unfold n, node_count; by rewrite Hlen). rewrite Hn in *.
    destruct (clear_empty _ _ _ (s_q1 _ _ _ _ _ _ _ _ S)) as (q & -> & Hq & Hqs). rewrite bind_S.
    destruct (f_step_refines n _ _ FResetAll Hf I) as (f & [= <-] & Hf').
    eexists. split; [done|]. split.
    + split; cbn; [done|done|done|apply replicate_length|].
      exists ∅, ∅. split; [done|]. split; [apply fref_new|]. split; [set_solver|].
      apply same_state_empty; triv.
    + split; cbn; try done. exists ∅, ∅. split; [done|]. split; [done|]. split; [set_solver|].
      apply same_state_empty; triv.
  - eexists. split; [done|].
    assert (forall A (x : A) l, length (resize_to n x l) = n) as Hr.
    { intros A x l. unfold resize_to. rewrite app_length, take_length, replicate_length. lia. }
    fold n. split.
    + split; cbn; [done|done|apply Hr|apply replicate_length|].
      exists ∅, ∅. split; [apply fref_new|]. split; [apply fref_new|]. split; [set_solver|].
      apply same_state_empty; triv.
    + split; cbn; try done; try apply Hr. exists ∅, ∅. split; [apply fref_new|]. split; [apply fref_new|]. split; [set_solver|].
      apply same_state_empty; triv.
Qed.

Lemma dsim_new g : wf_graph g -> dsim (new_dijkstra g) (new_dijkstra g).
Proof.
  intros Hg. split; cbn; try done; try apply replicate_length.
  exists ∅, ∅. split; [apply fref_new|]. split; [apply fref_new|]. split; [set_solver|].
  apply same_state_empty; triv.
Qed.

Lemma reset_sim_aux d1 d2 g : dsim d1 d2 -> wf_graph g ->
  length (g_first_out g) = length (g_first_out (d_graph d1)) ->
  option_Forall2 dsim
    (q ← clear (d_queue d1); Some (mkDijkstra g (tentative d1) (pred d1) (reset_all (was_popped d1)) q))
    (q ← clear (d_queue d2); Some (mkDijkstra g (tentative d2) (pred d2) (reset_all (was_popped d2)) q)).
Proof.
  intros [Hg Hwf Hl1 Hl2 (P & m & Hf1 & Hf2 & Htd & S)] Hwg Hlen.
  assert (node_count (d_graph d1) = node_count g) as Hn by (unfold node_count; by rewrite Hlen). rewrite Hn in *.
  set (n := node_count g) in *.
  destruct (clear_empty _ _ _ (s_q1 _ _ _ _ _ _ _ _ S)) as (q1 & -> & Hq1 & Hs1).
  destruct (clear_empty _ _ _ (s_q2 _ _ _ _ _ _ _ _ S)) as (q2 & -> & Hq2 & Hs2). rewrite !bind_S.
  constructor. split; cbn; try done.
  destruct (f_step_refines n _ _ FResetAll Hf1 I) as (f1 & [= <-] & Hf1').
  destruct (f_step_refines n _ _ FResetAll Hf2 I) as (f2 & [= <-] & Hf2').
  exists ∅, ∅. split; [done|]. split; [done|]. split; [set_solver|].
  apply same_state_empty; triv.
Qed.

Lemma add_source_sim d1 d2 id t : dsim d1 d2 -> option_Forall2 dsim (add_source d1 id t) (add_source d2 id t).
Proof.
  intros [Hg Hwf Hl1 Hl2 (P & m & Hf1 & Hf2 & Htd & S)]. set (n := node_count (d_graph d1)) in *.
  unfold add_source. destruct (decide (id < n)) as [Hid|Hid].
  2: { assert (wr (tentative d1) id t = None) as -> by (unfold wr; by rewrite decide_False by lia).
       assert (wr (tentative d2) id t = None) as -> by (unfold wr; by rewrite decide_False by lia). constructor. }
  rewrite (wr_Some (tentative d1)), (wr_Some (tentative d2)), !bind_S by lia.
  rewrite (wr_Some (pred d1)), (wr_Some (pred d2)), !bind_S by (rewrite ?(s_l1 _ _ _ _ _ _ _ _ S), ?(s_l2 _ _ _ _ _ _ _ _ S); done).
  destruct (m !! id) as [k0|] eqn:Em.
  { unfold push. cbn [fst]. rewrite (contains_id_spec _ _ _ _ (s_q1 _ _ _ _ _ _ _ _ S) Hid), (contains_id_spec _ _ _ _ (s_q2 _ _ _ _ _ _ _ _ S) Hid).
    rewrite Em, bool_decide_eq_true_2 by eauto. cbn. constructor. }
  destruct (push_spec _ _ _ id t (s_q1 _ _ _ _ _ _ _ _ S) Hid Em) as (q1' & E1 & Hq1').
  destruct (push_spec _ _ _ id t (s_q2 _ _ _ _ _ _ _ _ S) Hid Em) as (q2' & E2 & Hq2').
  pose proof (push_sim _ _ (id, t) (s_q _ _ _ _ _ _ _ _ S)) as Hsim.
  rewrite E1, E2 in *. apply F2_Some in Hsim. rewrite !bind_S. constructor.
  split; cbn; try done; try by rewrite insert_length.
  exists P, (<[id:=t]> m). split; [done|]. split; [done|]. split.
  - intros v Hv. destruct (decide (v = id)) as [->|].
    + rewrite !list_lookup_insert by lia. done.
    + rewrite !list_lookup_insert_ne by done. by apply Htd.
  - eapply same_state_set; try done.
    intros v [? [[-> _]|[_ ?]]%lookup_insert_Some]; [by left|right; by eexists].
Qed.

Lemma reached_sim d1 d2 x : dsim d1 d2 -> was_node_reached d1 x = was_node_reached d2 x /\
  (was_node_reached d1 x = Some true -> tentative d1 !! x = tentative d2 !! x /\
     forall fuel, node_walk (pred d1) (g_tail (d_graph d1)) fuel x = node_walk (pred d2) (g_tail (d_graph d1)) fuel x /\
       arc_walk (pred d1) (g_tail (d_graph d1)) fuel x = arc_walk (pred d2) (g_tail (d_graph d1)) fuel x).
Proof.
  intros [Hg Hwf Hl1 Hl2 (P & m & Hf1 & Hf2 & Htd & S)]. set (n := node_count (d_graph d1)) in *.
  unfold was_node_reached. destruct (decide (x < n)) as [Hx|Hx].
  - rewrite (is_set_spec _ _ _ _ Hf1 Hx), (is_set_spec _ _ _ _ Hf2 Hx). split; [done|].
    intros [= H%bool_decide_eq_true]. split; [by apply Htd|].
    intros fuel. revert x H Hx. induction fuel as [|fuel IH]; intros x H Hx; [done|].
    cbn [node_walk arc_walk]. rewrite <- (s_p _ _ _ _ _ _ _ _ S x) by (by left).
    destruct (pred d1 !! x) as [[a|]|] eqn:Ep; [|done|done]. rewrite !bind_S.
    destruct (s_closed _ _ _ _ _ _ _ _ S x a (or_introl H) Ep) as (u & Hu & HuP). rewrite Hu, !bind_S.
    destruct Hf1 as (_ & _ & _ & Hb). destruct (IH u HuP (Hb _ HuP)) as [-> ->]. done.
  - unfold is_set. destruct Hf1 as [L1 _], Hf2 as [L2 _].
    rewrite (lookup_ge_None_2 (last_seen (was_popped d1))), (lookup_ge_None_2 (last_seen (was_popped d2))) by lia. done.
Qed.

Definition op_wf (o : dop) : Prop := match o with DResetGraph g => wf_graph g | _ => True end.

Lemma d_step_sim d1 d2 o : dsim d1 d2 -> op_wf o -> option_Forall2 out_sim (d_step d1 o) (d_step d2 o).
Proof.
  intros Hd Ho. pose proof (z_g _ _ Hd) as Hg.
  assert (Hunit : forall a b, option_Forall2 dsim a b ->
    option_Forall2 out_sim (d ← a; Some (DUnit, d)) (d ← b; Some (DUnit, d))).
  { intros a b [x y H|]; constructor. by split. }
  destruct o as [|g|id t|w| |x|x|x|x]; cbn [d_step].
  - apply Hunit. unfold d_reset. rewrite <- Hg. apply reset_sim_aux; [done|apply Hd|done].
  - apply Hunit. unfold d_reset_graph. rewrite <- Hg. case_decide as Hl.
    + by apply reset_sim_aux.
    + constructor. assert (forall A (x : A) l, length (resize_to (node_count g) x l) = node_count g) as Hr.
      { intros A x l. unfold resize_to. rewrite app_length, take_length, replicate_length. lia. }
      split; cbn; try done; try apply Hr. exists ∅, ∅. split; [apply fref_new|]. split; [apply fref_new|]. split; [set_solver|].
      apply same_state_empty; triv.
  - apply Hunit. by apply add_source_sim.
  - eapply F2_bind; [by apply settle_sim|]. intros [[i1 k1] e1] [[i2 k2] e2] [H He]. cbn in *. simplify_eq.
    constructor. by split.
  - constructor. split; [|done]. cbn. f_equal. destruct Hd as [_ _ _ _ (P & m & _ & _ & _ & S)].
    unfold is_finished. apply empty_sim, S.
  - destruct (reached_sim _ _ x Hd) as [-> _]. destruct (was_node_reached d2 x); constructor. by split.
  - destruct (reached_sim _ _ x Hd) as [E H]. unfold get_distance_to. unfold was_node_reached in *. rewrite <- E.
    destruct (is_set (was_popped d1) x) as [[]|]; rewrite ?bind_S; [|constructor; by split|constructor].
    destruct (H eq_refl) as [-> _]. destruct (tentative d2 !! x); constructor. by split.
  - destruct (reached_sim _ _ x Hd) as [E H]. unfold get_node_path_to. rewrite <- E.
    destruct (was_node_reached d1 x) as [[]|]; rewrite ?bind_S; [|constructor; by split|constructor].
    rewrite <- Hg. destruct (H eq_refl) as [_ Hf]. destruct (Hf (node_count (d_graph d1))) as [-> _].
    destruct (node_walk _ _ _ _); constructor. by split.
  - destruct (reached_sim _ _ x Hd) as [E H]. unfold get_arc_path_to. rewrite <- E.
    destruct (was_node_reached d1 x) as [[]|]; rewrite ?bind_S; [|constructor; by split|constructor].
    rewrite <- Hg. destruct (H eq_refl) as [_ Hf]. destruct (Hf (node_count (d_graph d1))) as [_ ->].
    destruct (arc_walk _ _ _ _); constructor. by split.
Qed.

Lemma d_run_sim os : forall d1 d2, dsim d1 d2 -> Forall op_wf os ->
  option_Forall2 out_sim (d_run d1 os) (d_run d2 os).
Proof.
  induction os as [|o os IH]; intros d1 d2 Hd Ho; cbn [d_run]; [constructor; by split|].
  apply Forall_cons in Ho as [Ho Hos].
  eapply F2_bind; [by apply d_step_sim|]. intros [r1 e1] [r2 e2] [H He]. cbn in *. subst r2.
  eapply F2_bind; [by apply IH|]. intros [rs1 f1] [rs2 f2] [H Hf]. cbn in *. subst rs2. constructor. by split.
Qed.

Lemma F2_out {A} (a b : option (A * dijkstra)) : option_Forall2 out_sim a b -> fst <$> a = fst <$> b.
Proof. intros [x y [H _]|]; [|done]. cbn. by rewrite H. Qed.

(** Any object that ever was used can be reset to a new graph. *)
Lemma reset_graph_like_new g1 h rs d g2 os :
  wf_graph g1 -> wf_graph g2 -> Forall op_wf h -> Forall op_wf os -> d_run (new_dijkstra g1) h = Some (rs, d) ->
  exists d', d_reset_graph d g2 = Some d' /\ fst <$> d_run d' os = fst <$> d_run (new_dijkstra g2) os.
Proof.
  intros H1 H2 Hh Hos Hr. pose proof (d_run_sim h _ _ (dsim_new g1 H1) Hh) as Hs. rewrite Hr in Hs.
  apply F2_Some in Hs as [_ Hd]. cbn in Hd.
  destruct (reset_graph_new d g2 Hd H2) as (d' & E & Hd' & _). exists d'. split; [done|].
  apply F2_out. by apply d_run_sim.
Qed.
Lemma reset_like_new g1 h rs d os :
  wf_graph g1 -> Forall op_wf h -> Forall op_wf os -> d_run (new_dijkstra g1) h = Some (rs, d) ->
  exists d', d_reset d = Some d' /\ fst <$> d_run d' os = fst <$> d_run (new_dijkstra (d_graph d)) os.
Proof.
  intros H1 Hh Hos Hr. pose proof (d_run_sim h _ _ (dsim_new g1 H1) Hh) as Hs. rewrite Hr in Hs.
  apply F2_Some in Hs as [_ Hd]. cbn in Hd.
  destruct (reset_graph_new d (d_graph d) Hd (z_wf _ _ Hd)) as (d' & E & Hd' & _).
  unfold d_reset_graph in E. rewrite decide_True in E by done. exists d'. split; [done|].
  apply F2_out. by apply d_run_sim.
Qed.
