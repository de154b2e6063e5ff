(** Proofs about InertialModel. *)
From Verif Require Import Base UtilSpec GraphSpec FlowModel FlowSpec FlowArray FlowNetProofs FlowCutProofs FlowSearchProofs Properties_Flow NestedModel NestedSpec NestedSeparatorProofs InertialModel InertialSpec.

Ltac Zify.zify_post_hook ::= idtac.

Lemma mark_nodes_spec n v : (forall x, x ∈ v -> x < n) ->
  exists r, mark_nodes n v = Some r /\ length r = n /\ forall x, node_in r x = true <-> x ∈ v.
Proof.
  intros Hv. unfold mark_nodes.
  match goal with |- context [for_each v ?body ?init] => destruct (for_each_inv (fun pre r => length r = n /\ forall x, node_in r x = true <-> x ∈ pre) body v init) as (r & Hr & H1 & H2) end.
  - rewrite replicate_length. split; [done|]. intros x. unfold node_in. split.
    + destruct (replicate n false !! x) as [b|] eqn:E; [|done]. apply lookup_replicate in E as [-> _]. done.
    + by intros ?%elem_of_nil.
  - intros pre x post r E (Hl & H). assert (x < n) by (apply Hv; rewrite E, elem_of_app, elem_of_cons; auto).
    rewrite (wr_Some r) by lia. eexists. split; [done|]. rewrite insert_length. split; [done|]. intros y. rewrite elem_of_app, elem_of_list_singleton.
    rewrite node_in_insert by lia. case_decide as D.
    + subst. tauto.
    + rewrite H. split; [auto|]. intros [?| ->]; [done|]. by destruct D.
  - exists r. done.
Qed.

Section Start.
  Context (asserts : bool) (g : fragment) (side : nat) (v : list nat).
  Context (Hp : perm v) (Hl : length v = fr_nodes g) (Hs : 0 < side) (H2 : 2 * side <= fr_nodes g).

  Lemma select_spec : exists A B, select_source_and_target asserts side (fr_nodes g) v = Some (A, B) /\ first_last g side v A B.
  Proof.
    unfold select_source_and_target.
    assert (side <=? fr_nodes g / 2 = true) as -> by (apply Nat.leb_le, Nat.div_le_lower_bound; lia).
    replace (implb asserts true) with true by (by destruct asserts). cbn [chk]. rewrite bind_S.
    assert ((side <=? fr_nodes g) && (side <=? fr_nodes g - side) = true) as -> by (apply andb_true_iff; rewrite !Nat.leb_le; lia). cbn [chk]. rewrite bind_S.
    assert (forall x, x ∈ v -> x < fr_nodes g) as Hb by (intros x [i Hi]%elem_of_list_lookup; rewrite <- Hl; by eapply perm_lookup_lt).
    destruct (mark_nodes_spec (fr_nodes g) (take side v)) as (A & -> & HA & HA2).
    { intros x Hx. apply Hb. rewrite <- (take_drop side v), elem_of_app. auto. }
    rewrite bind_S.
    destruct (mark_nodes_spec (fr_nodes g) (drop (fr_nodes g - side) v)) as (B & -> & HB & HB2).
    { intros x Hx. apply Hb. rewrite <- (take_drop (fr_nodes g - side) v), elem_of_app. auto. }
    rewrite bind_S. exists A, B. done.
  Qed.

  Lemma first_last_start A B : first_last g side v A B -> flow_start g A B.
  Proof.
    intros (HA & HB & H3 & H4). split; [done|]. split; [done|]. intros x Hx. apply H3 in Hx. destruct (node_in B x) eqn:E; [|done]. apply H4 in E. exfalso.
    apply elem_of_list_lookup in Hx as [i Hi]. apply elem_of_list_lookup in E as [j Hj]. rewrite lookup_drop in Hj. apply lookup_take_Some in Hi as [Hi Hlt].
    assert (i = fr_nodes g - side + j) by (eapply perm_inj; eassumption). lia.
  Qed.
  Lemma first_last_nonempty A B : first_last g side v A B -> (exists x, node_in A x = true) /\ (exists x, node_in B x = true).
  Proof.
    intros (HA & HB & H3 & H4). split.
    - destruct (lookup_lt_is_Some_2 v 0 ltac:(lia)) as [x Hx]. exists x. apply H3, elem_of_list_lookup. exists 0. by rewrite lookup_take by lia.
    - destruct (lookup_lt_is_Some_2 v (fr_nodes g - side) ltac:(lia)) as [x Hx]. exists x. apply H4, elem_of_list_lookup. exists 0. by rewrite lookup_drop, Nat.add_0_r.
  Qed.
End Start.

Lemma side_size_spec n b : 2 <= n -> (b <= 50)%N -> 0 < side_size n b /\ 2 * side_size n b <= n.
Proof.
  intros Hn Hb. unfold side_size.
  assert (N.to_nat ((N.of_nat n * b) mod 4294967296 / 100) * 2 <= n) as H.
  { assert ((N.of_nat n * b) mod 4294967296 / 100 * 2 <= N.of_nat n)%N; [|lia].
    pose proof (N.mod_le (N.of_nat n * b) 4294967296 ltac:(done)). pose proof (N.mul_div_le ((N.of_nat n * b) mod 4294967296) 100 ltac:(done)). nia. }
  destruct (Nat.eqb_spec (N.to_nat ((N.of_nat n * b) mod 4294967296 / 100)) 0); lia.
Qed.

Lemma balance_loop_size g asserts sat intensity fuel : forall stack s t c, balance_loop g asserts sat intensity fuel stack s t = Some c -> c_size c = intensity.
Proof.
  induction fuel as [|fuel IH]; intros stack s t c; cbn [balance_loop]; [done|]. destruct (h_count s <=? h_count t).
  - destruct (find_pierce s (h_side t) (h_pend s)) as [[[y pend]|]|]; [|by intros [= <-]|done]. rewrite bind_S.
    destruct (pierce g asserts (free_out sat) stack s y pend) as [[stack' s']|]; [|done]. rewrite bind_S. apply IH.
  - destruct (find_pierce t (h_side s) (h_pend t)) as [[[y pend]|]|]; [|by intros [= <-]|done]. rewrite bind_S.
    destruct (pierce g asserts (free_in g sat) stack t y pend) as [[stack' t']|]; [|done]. rewrite bind_S. apply IH.
Qed.
Lemma balanced_cut_size g asserts f c : get_balanced_cut g asserts f = Some c -> c_size c = f_intensity f.
Proof.
  unfold get_balanced_cut. intros H. destruct (chk (implb asserts (f_finished f))); [|done]. rewrite bind_S in H. cbv zeta in H.
  destruct (push_marked g (f_source f) _) as [[st e]|]; [|done]. rewrite bind_S in H.
  destruct (enlarge g asserts (free_out (f_sat f)) _ _) as [[st1 s1]|]; [|done]. rewrite bind_S in H.
  destruct (push_marked g (f_target f) _) as [[st2 e2]|]; [|done]. rewrite bind_S in H.
  destruct (enlarge g asserts (free_in g (f_sat f)) _ _) as [[st3 s3]|]; [|done]. rewrite bind_S in H. by eapply balance_loop_size.
Qed.

Lemma next_cutter_spec fs : length fs = 4 -> exists i f, next_cutter fs = Some i /\ fs !! i = Some f /\ forall j f', fs !! j = Some f' -> f_intensity f <= f_intensity f'.
Proof.
  destruct fs as [|h [|v [|m [|n [|]]]]]; try done. intros _. unfold next_cutter. cbn [fmap list_fmap].
  assert (forall f : flow, (forall f', In f' [h; v; m; n] -> f_intensity f <= f_intensity f') -> forall j f', [h; v; m; n] !! j = Some f' -> f_intensity f <= f_intensity f') as Hin.
  { intros f H j f' Hj. apply H, elem_of_list_In, elem_of_list_lookup. by exists j. }
  destruct ((f_intensity h <=? f_intensity v) && (f_intensity h <=? f_intensity m) && (f_intensity h <=? f_intensity n)) eqn:E1.
  { exists 0, h. split; [done|]. split; [done|]. apply Hin. rewrite !andb_true_iff, !Nat.leb_le in E1. cbn. intros f' [<-|[<-|[<-|[<-|[]]]]]; lia. }
  destruct ((f_intensity v <=? f_intensity m) && (f_intensity v <=? f_intensity n)) eqn:E2.
  { exists 1, v. split; [done|]. split; [done|]. apply Hin. rewrite !andb_false_iff, !Nat.leb_gt in E1. rewrite !andb_true_iff, !Nat.leb_le in E2. cbn. intros f' [<-|[<-|[<-|[<-|[]]]]]; lia. }
  rewrite !andb_false_iff, !Nat.leb_gt in E1, E2.
  destruct (Nat.leb_spec (f_intensity m) (f_intensity n)) as [E3|E3].
  - exists 2, m. split; [done|]. split; [done|]. apply Hin. cbn. intros f' [<-|[<-|[<-|[<-|[]]]]]; lia.
  - exists 3, n. split; [done|]. split; [done|]. apply Hin. cbn. intros f' [<-|[<-|[<-|[<-|[]]]]]; lia.
Qed.

Section Loop.
  Context (asserts : bool) (g : fragment) (Hok : fragment_ok g).
  Context (sets : list (list bool * list bool)) (Hsets : length sets = 4) (Hstart : forall i A B, sets !! i = Some (A, B) -> flow_start g A B).

  Definition flows_ok (fs : list flow) : Prop := length fs = 4 /\ forall i f A B, fs !! i = Some f -> sets !! i = Some (A, B) -> fl_ok g A B f.
  Definition todo (f : flow) : nat := if f_finished f then 0 else fr_arcs g + 1 - f_intensity f.
  Fixpoint work (fs : list flow) : nat := match fs with [] => 0 | f :: fs => todo f + work fs end.

  Lemma work_insert fs i f f' : fs !! i = Some f -> todo f' < todo f -> work (<[i := f']> fs) < work fs.
  Proof.
    revert i. induction fs as [|h fs IH]; intros i Hi Hlt; [done|]. destruct i as [|i].
    - injection Hi as ->. cbn. lia.
    - specialize (IH i Hi Hlt). change (work (h :: <[i:=f']> fs) < work (h :: fs)). cbn [work]. lia.
  Qed.

  Lemma inertial_loop_spec fuel : forall fs, flows_ok fs -> work fs < fuel ->
    exists c, inertial_loop asserts g fuel fs = Some c /\
      (exists i A B, sets !! i = Some (A, B) /\ (minimum_cut g A B c \/ minimum_cut g B A c)) /\
      (forall i A B S, sets !! i = Some (A, B) -> separates g S A B -> c_size c <= cut_arcs g S).
  Proof.
    induction fuel as [|fuel IH]; intros fs [Hl H] Hw; [lia|]. cbn [inertial_loop].
    destruct (next_cutter_spec fs Hl) as (i & f & -> & Hf & Hmin). rewrite bind_S, Hf, bind_S.
    assert (i < 4) as Hi by (rewrite <- Hl; by eapply lookup_lt_Some).
    destruct (sets !! i) as [[A B]|] eqn:HAB; [|apply lookup_ge_None in HAB; lia].
    pose proof (H i f A B Hf HAB) as Hfl. pose proof (Hstart i A B HAB) as Hst.
    destruct (f_finished f) eqn:Hfin.
    - destruct (balanced_cut_spec g Hok A B Hst asserts f Hfl Hfin) as (c & Hc & Hcut). exists c. split; [done|]. split; [by exists i, A, B|].
      intros j A' B' S HAB' HS. rewrite (balanced_cut_size g asserts f c Hc).
      destruct (fs !! j) as [f'|] eqn:Hf'; [|apply lookup_ge_None in Hf'; apply lookup_lt_Some in HAB'; lia].
      apply (Nat.le_trans _ (f_intensity f')); [by eapply Hmin|]. eapply (intensity_le g A' B'); [|done]. by eapply H.
    - destruct (advance_spec g Hok A B Hst asserts f Hfl) as (f' & Hf' & Hfl' & Hor & _). rewrite Hf', bind_S.
      rewrite (wr_Some fs) by lia. rewrite bind_S. apply IH.
      + split; [by rewrite insert_length|]. intros j f2 A2 B2 Hj HAB2. destruct (decide (i = j)) as [<-|Hne].
        * rewrite list_lookup_insert in Hj by lia. injection Hj as <-. rewrite HAB in HAB2. by injection HAB2 as <- <-.
        * rewrite list_lookup_insert_ne in Hj by done. by eapply H.
      + assert (work (<[i := f']> fs) < work fs); [|lia]. eapply work_insert; [done|]. unfold todo. rewrite Hfin.
        pose proof (intensity_le_m g A B Hst f Hfl). destruct Hor as [-> |[_ Hlt]]; [lia|]. destruct (f_finished f'); lia.
  Qed.
End Loop.

Section InertialFlow.
  Context (asserts : bool) (g : fragment) (Hok : fragment_ok g) (Hn : 2 <= fr_nodes g) (b : N) (Hb : (b <= 50)%N).
  Context (orders : nat -> list nat) (garbage : nat -> list bool).
  Context (Hord : forall i, i < 4 -> perm (orders i) /\ length (orders i) = fr_nodes g) (Hg : forall i, i < 4 -> length (garbage i) = fr_arcs g).

  Lemma inertial_flow_spec : exists c, inertial_flow asserts g b orders garbage = Some c /\
    (exists i A B, i < 4 /\ first_last g (side_size (fr_nodes g) b) (orders i) A B /\ (minimum_cut g A B c \/ minimum_cut g B A c)) /\
    (forall i A B S, i < 4 -> first_last g (side_size (fr_nodes g) b) (orders i) A B -> separates g S A B -> c_size c <= cut_arcs g S).
  Proof.
    destruct (side_size_spec (fr_nodes g) b Hn Hb) as [Hs H2]. unfold inertial_flow. cbv zeta.
    set (side := side_size (fr_nodes g) b) in *.
    assert (forall i, i < 4 -> exists A B, select_source_and_target asserts side (fr_nodes g) (orders i) = Some (A, B) /\ first_last g side (orders i) A B) as Hsel.
    { intros i Hi. destruct (Hord i Hi). by apply select_spec. }
    destruct (Hsel 0 ltac:(lia)) as (s0 & t0 & -> & F0). destruct (Hsel 1 ltac:(lia)) as (s1 & t1 & -> & F1).
    destruct (Hsel 2 ltac:(lia)) as (s2 & t2 & -> & F2). destruct (Hsel 3 ltac:(lia)) as (s3 & t3 & -> & F3). rewrite !bind_S.
    set (sets := [(s0, t0); (s1, t1); (s2, t2); (s3, t3)]).
    assert (forall i A B, sets !! i = Some (A, B) -> i < 4 /\ first_last g side (orders i) A B) as Hfl.
    { intros i A B. do 4 (destruct i as [|i]; [intros [= <- <-]; split; [lia|done]|]). done. }
    match goal with |- context [inertial_loop asserts g ?fuel0 ?fs0] => destruct (inertial_loop_spec asserts g Hok sets ltac:(done)) with (fuel := fuel0) (fs := fs0) as (c & Hc & Hcut & Hmin) end.
    - intros i A B HAB. destruct (Hfl i A B HAB) as [Hi F]. destruct (Hord i Hi) as [Hp Hl]. by eapply first_last_start.
    - split; [done|]. intros i f A B. do 4 (destruct i as [|i]; [intros [= <-] [= <- <-]; apply make_flow_ok, Hg; lia|]). done.
    - cbn. unfold todo. cbn [f_finished f_intensity make_flow]. lia.
    - exists c. split; [done|]. split.
      + destruct Hcut as (i & A & B & HAB & Hcut). destruct (Hfl i A B HAB) as [Hi F]. by exists i, A, B.
      + intros i A B S Hi F HS. assert (is_Some (sets !! i)) as [[A' B'] HAB] by (by apply lookup_lt_is_Some). destruct (Hfl i A' B' HAB) as [_ F'].
        apply (Hmin i A' B' S HAB). destruct HS as (HSl & HSA & HSB). destruct F as (_ & _ & FA & FB), F' as (_ & _ & FA' & FB').
        split; [done|]. split.
        * intros x Hx. by apply HSA, FA, FA'.
        * intros x Hx. by apply HSB, FB, FB'.
  Qed.

  Lemma node_in_lt S x : node_in S x = true -> x < length S.
  Proof. unfold node_in. destruct (S !! x) eqn:E; [|done]. intros _. by eapply lookup_lt_Some. Qed.

  Lemma minimum_cut_proper A B c : length A = fr_nodes g -> length B = fr_nodes g -> (exists x, node_in A x = true) -> (exists x, node_in B x = true) ->
    minimum_cut g A B c -> proper g c.
  Proof.
    intros HA HB [x Hx] [y Hy] ((Hl & H1 & H2) & _). split; [done|]. exists x, y. split; [rewrite <- HA; by apply node_in_lt|]. split; [rewrite <- HB; by apply node_in_lt|].
    rewrite (H1 x Hx), (H2 y Hy). done.
  Qed.
  Lemma inertial_flow_proper c : inertial_flow asserts g b orders garbage = Some c -> proper g c.
  Proof.
    intros E. destruct inertial_flow_spec as (c' & E' & (i & A & B & Hi & F & Hcut) & _). rewrite E in E'. injection E' as <-.
    destruct (side_size_spec (fr_nodes g) b Hn Hb) as [Hs H2]. destruct (Hord i Hi) as [Hp Hl].
    destruct (first_last_nonempty g (side_size (fr_nodes g) b) (orders i) Hl Hs H2 A B F) as [HA HB]. pose proof F as (HlA & HlB & _).
    destruct Hcut as [Hcut|Hcut]; [by eapply (minimum_cut_proper A B)|by eapply (minimum_cut_proper B A)].
  Qed.
End InertialFlow.

Lemma pick_proper g c : proper g c -> proper g (pick_smaller_side c).
Proof.
  intros (Hl & x & y & Hx & Hy & Hne). unfold pick_smaller_side. cbv zeta. destruct (_ <=? _); [|by split; [|exists x, y]].
  split; cbn [c_side]; [by rewrite fmap_length|]. exists x, y. split; [done|]. split; [done|]. rewrite !node_in_negb by lia. by destruct (node_in (c_side c) x), (node_in (c_side c) y).
Qed.

Section Balance.
  Context (g : fragment) (side : nat) (v : list nat) (Hok : fragment_ok g).
  Context (Hp : perm v) (Hl : length v = fr_nodes g) (H2 : 2 * side <= fr_nodes g).

  Lemma count_ge (S : list bool) l : NoDup l -> (forall x, x ∈ l -> x < fr_nodes g /\ node_in S x = true) ->
    length l <= length (filter (fun x => node_in S x = true) (seq 0 (fr_nodes g))).
  Proof.
    intros Hnd H. apply submseteq_length, NoDup_submseteq; [done|]. intros x Hx. destruct (H x Hx). apply elem_of_list_filter. split; [done|]. apply elem_of_seq. lia.
  Qed.
  Lemma minimum_cut_balance A B c : first_last g side v A B -> minimum_cut g A B c \/ minimum_cut g B A c -> side <= c_count c /\ c_count c + side <= fr_nodes g.
  Proof.
    intros (HA & HB & FA & FB) Hcut.
    assert (NoDup v) as Hnd by (by apply perm_NoDup).
    assert (forall x, x ∈ v -> x < fr_nodes g) as Hb by (intros x [i Hi]%elem_of_list_lookup; rewrite <- Hl; by eapply perm_lookup_lt).
    assert (forall c, minimum_cut g A B c -> side <= c_count c) as HcA.
    { intros c1 ((Hl1 & H1 & _) & _ & _ & ->). apply (Nat.le_trans _ (length (take side v))); [rewrite take_length; lia|]. apply count_ge.
      - rewrite <- (take_drop side v) in Hnd. by apply NoDup_app in Hnd as (? & _ & _).
      - intros x Hx. split; [|by apply H1, FA]. apply Hb. rewrite <- (take_drop side v), elem_of_app. auto. }
    assert (forall c, minimum_cut g B A c -> side <= c_count c) as HcB.
    { intros c1 ((Hl1 & H1 & _) & _ & _ & ->). apply (Nat.le_trans _ (length (drop (fr_nodes g - side) v))); [rewrite drop_length; lia|]. apply count_ge.
      - rewrite <- (take_drop (fr_nodes g - side) v) in Hnd. by apply NoDup_app in Hnd as (_ & _ & ?).
      - intros x Hx. split; [|by apply H1, FB]. apply Hb. rewrite <- (take_drop (fr_nodes g - side) v), elem_of_app. auto. }
    assert (c_count c <= fr_nodes g) as Hle.
    { assert (c_count c = length (filter (fun x => node_in (c_side c) x = true) (seq 0 (fr_nodes g)))) as -> by (by destruct Hcut as [(_ & _ & _ & ?)|(_ & _ & _ & ?)]).
      etrans; [apply filter_length|]. by rewrite seq_length. }
    destruct Hcut as [Hcut|Hcut].
    - split; [by apply HcA|]. pose proof (HcB _ (minimum_cut_sym g A B c Hok HA HB Hcut)) as H. destruct Hcut as ((Hlc & _) & _). cbn [c_count] in H. lia.
    - split; [by apply HcB|]. pose proof (HcA _ (minimum_cut_sym g B A c Hok HB HA Hcut)) as H. destruct Hcut as ((Hlc & _) & _). cbn [c_count] in H. lia.
  Qed.
End Balance.

Lemma ratio_trans s1 n1 s2 n2 s3 n3 : 0 < n2 -> s1 * n2 < s2 * n1 -> s2 * n3 <= s3 * n2 -> 0 < n3 -> s1 * n3 < s3 * n1.
Proof.
  intros H2 H H' H3. apply (Nat.mul_lt_mono_pos_l n2); [done|]. apply (Nat.lt_le_trans _ (s2 * n1 * n3)).
  - assert (s1 * n2 * n3 < s2 * n1 * n3) by (apply Nat.mul_lt_mono_pos_r; done). lia.
  - assert (s2 * n3 * n1 <= s3 * n2 * n1) by (apply Nat.mul_le_mono_r; done). lia.
Qed.
Lemma best_of_three_spec a b c : 0 < c_count a -> 0 < c_count b -> 0 < c_count c ->
  forall d, d ∈ [a; b; c] -> c_size (best_of_three a b c) * c_count d <= c_size d * c_count (best_of_three a b c).
Proof.
  intros Ha Hb Hc d Hd. assert (d = a \/ d = b \/ d = c) as Hd' by (rewrite !elem_of_cons, elem_of_nil in Hd; tauto). clear Hd. unfold best_of_three.
  destruct (Nat.ltb_spec (c_size a * c_count b) (c_size b * c_count a)) as [E1|E1];
    destruct (Nat.ltb_spec (c_size a * c_count c) (c_size c * c_count a)) as [E2|E2]; cbn [andb];
    [|destruct (Nat.ltb_spec (c_size b * c_count c) (c_size c * c_count b)) as [E3|E3]..].
  - destruct Hd' as [-> |[-> | ->]]; lia.
  - pose proof (ratio_trans _ _ _ _ _ _ Hb E1 (Nat.lt_le_incl _ _ E3) Hc). lia.
  - destruct Hd' as [-> |[-> | ->]]; lia.
  - destruct Hd' as [-> |[-> | ->]]; lia.
  - pose proof (ratio_trans _ _ _ _ _ _ Hc E2 E3 Hb). lia.
  - destruct Hd' as [-> |[-> | ->]]; lia.
  - destruct Hd' as [-> |[-> | ->]]; lia.
Qed.
Lemma best_of_three_in a b c : best_of_three a b c ∈ [a; b; c].
Proof. unfold best_of_three. rewrite !elem_of_cons. destruct (_ && _); [auto|]. destruct (_ <? _); auto. Qed.
