(** The recursion of compute_separator_decomposition (nested_dissection.cpp:740-842). *)
From stdpp Require Import relations.
From Verif Require Import Base GraphSpec UtilSpec FlowModel FlowSpec FlowArray NestedModel NestedSpec NestedArcProofs NestedRemoveProofs NestedCompProofs NestedPartProofs.
Ltac Zify.zify_post_hook ::= idtac.

(** ** Forests *)
Fixpoint fapp (f g : forest) : forest := match f with FNil => g | FNode a b cs ss => FNode a b cs (fapp ss g) end.
Fixpoint fshift (d : nat) (f : forest) : forest := match f with FNil => FNil | FNode a b cs ss => FNode (a + d) (b + d) (fshift d cs) (fshift d ss) end.
(** The index of the last root *)
Fixpoint last_root (f : forest) : nat := match f with FNil => 0 | FNode a b cs ss => if fnil ss then 0 else 1 + fsize cs + last_root ss end.
Definition set_right (r : nat) (t : tnode) : tnode := mkNode (t_left t) r (t_first t) (t_last t).

Lemma layout_len f i : length (layout f i) = fsize f.
Proof. revert i. induction f as [|a b cs IH1 ss IH2]; intros i; [done|]. cbn. rewrite app_length, IH1, IH2. done. Qed.
Lemma fsize_app f g : fsize (fapp f g) = fsize f + fsize g.
Proof. induction f as [|a b cs IH1 ss IH2]; cbn; [done|]. rewrite IH2. lia. Qed.
Lemma fsize_shift d f : fsize (fshift d f) = fsize f.
Proof. induction f as [|a b cs IH1 ss IH2]; cbn; [done|]. by rewrite IH1, IH2. Qed.
Lemma fnil_shift d f : fnil (fshift d f) = fnil f.
Proof. by destruct f. Qed.
Lemma last_root_app f a b cs : last_root (fapp f (FNode a b cs FNil)) = fsize f.
Proof.
  induction f as [|a' b' cs' IH1 ss IH2]; cbn; [done|]. rewrite IH2. destruct ss; cbn; lia.
Qed.
Lemma layout_shift d k f i : shift_node k d <$> layout f i = layout (fshift d f) (i + k).
Proof.
  revert i. induction f as [|a b cs IH1 ss IH2]; intros i; [done|]. cbn [layout fshift fmap list_fmap]. rewrite fmap_app.
  change (list_fmap tnode tnode) with (@fmap list _ tnode tnode). rewrite IH1, IH2, !fnil_shift, fsize_shift. f_equal.
  - unfold shift_node. cbn [t_left t_right t_first t_last]. f_equal.
    + destruct (fnil cs); [done|]. rewrite (proj2 (Nat.eqb_neq (i + 1) 0)) by lia. lia.
    + destruct (fnil ss); [done|]. rewrite (proj2 (Nat.eqb_neq (i + 1 + fsize cs) 0)) by lia. lia.
  - f_equal; f_equal; lia.
Qed.
Lemma layout_snoc f a b cs i : fnil f = false -> exists nd, layout f i !! last_root f = Some nd /\
  layout (fapp f (FNode a b cs FNil)) i = <[last_root f := set_right (i + fsize f) nd]> (layout f i) ++ layout (FNode a b cs FNil) (i + fsize f).
Proof.
  revert i. induction f as [|a' b' cs' IH1 ss IH2]; intros i Hf; [done|]. cbn [last_root fapp]. destruct (fnil ss) eqn:Es.
  - destruct ss; [|done]. cbn [fapp layout fnil fsize]. eexists. split; [done|]. rewrite !app_nil_r. cbn [list_insert insert set_right t_left t_right t_first t_last].
    rewrite Nat.add_0_r. replace (i + (1 + fsize cs')) with (i + 1 + fsize cs') by lia. done.
  - destruct (IH2 (i + 1 + fsize cs') eq_refl) as (nd & E1 & E2). exists nd. cbn [layout]. rewrite E2, Es.
    assert (fnil (fapp ss (FNode a b cs FNil)) = false) as -> by (by destruct ss). split.
    + transitivity ((layout cs' (i + 1) ++ layout ss (i + 1 + fsize cs')) !! (fsize cs' + last_root ss)); [done|]. rewrite lookup_app_r by (rewrite layout_len; lia). rewrite layout_len.
      replace (fsize cs' + last_root ss - fsize cs') with (last_root ss) by lia. done.
    + cbn [fsize]. change (1 + fsize cs' + last_root ss) with (S (fsize cs' + last_root ss)). change (1 + fsize cs' + fsize ss) with (S (fsize cs' + fsize ss)).
      match goal with |- _ = <[S ?k := ?v]> (?h :: ?l) ++ ?r => change (<[S k := v]> (h :: l) ++ r) with (h :: <[k := v]> l ++ r) end.
      f_equal. rewrite insert_app_r_alt by (rewrite layout_len; lia). rewrite layout_len.
      replace (fsize cs' + last_root ss - fsize cs') with (last_root ss) by lia. rewrite <- (assoc_L (++)). f_equal.
      replace (i + S (fsize cs' + fsize ss)) with (i + 1 + fsize cs' + fsize ss) by lia. done.
Qed.

Lemma dec_le adj f lo hi : decomposes adj f lo hi -> lo <= hi.
Proof.
  revert lo hi. induction f as [|a b cs IH1 ss IH2]; intros lo hi; cbn; [lia|]. intros (H1 & H2 & H3 & _). apply IH1 in H1. apply IH2 in H3. lia.
Qed.
Lemma dec_shift (adj adj' : nat -> nat -> Prop) d f lo hi : (forall p q, lo <= p < hi -> lo <= q < hi -> adj' (p + d) (q + d) -> adj p q) ->
  decomposes adj f lo hi -> decomposes adj' (fshift d f) (lo + d) (hi + d).
Proof.
  revert lo hi. induction f as [|a b cs IH1 ss IH2]; intros lo hi Hadj; cbn; [lia|]. intros (H1 & H2 & H3 & H4).
  pose proof (dec_le _ _ _ _ H1). pose proof (dec_le _ _ _ _ H3). split; [|split; [|split]].
  - apply IH1; [|done]. intros p q Hp Hq. apply Hadj; lia.
  - lia.
  - apply IH2; [|done]. intros p q Hp Hq. apply Hadj; lia.
  - intros p q Hp Hq. replace p with (p - d + d) by lia. replace q with (q - d + d) by lia. destruct (H4 (p - d) (q - d)) as [N1 N2]; [lia|lia|].
    split; intros Ha; [apply N1|apply N2]; apply Hadj; (lia || done).
Qed.
Lemma dec_mono (adj adj' : nat -> nat -> Prop) f lo hi : (forall p q, lo <= p < hi -> lo <= q < hi -> adj' p q -> adj p q) ->
  decomposes adj f lo hi -> decomposes adj' f lo hi.
Proof.
  revert lo hi. induction f as [|a b cs IH1 ss IH2]; intros lo hi Hadj; cbn; [lia|]. intros (H1 & H2 & H3 & H4).
  pose proof (dec_le _ _ _ _ H1). pose proof (dec_le _ _ _ _ H3). split; [|split; [|split]].
  - apply IH1; [|done]. intros p q Hp Hq. apply Hadj; lia.
  - lia.
  - apply IH2; [|done]. intros p q Hp Hq. apply Hadj; lia.
  - intros p q Hp Hq. destruct (H4 p q) as [N1 N2]; [lia|lia|]. split; intros Ha; [apply N1|apply N2]; apply Hadj; (lia || done).
Qed.
Lemma dec_app (adj : nat -> nat -> Prop) f f' lo mid hi : decomposes adj f lo mid -> decomposes adj f' mid hi ->
  (forall p q, lo <= p < mid -> mid <= q < hi -> ~ adj p q /\ ~ adj q p) -> decomposes adj (fapp f f') lo hi.
Proof.
  revert lo. induction f as [|a b cs IH1 ss IH2]; intros lo; cbn [fapp decomposes].
  - by intros ->.
  - intros (H1 & H2 & H3 & H4) Hf' Hadj. pose proof (dec_le _ _ _ _ H1). pose proof (dec_le _ _ _ _ H3). split; [done|]. split; [done|]. split.
    + apply IH2; [done|done|]. intros p q Hp Hq. apply Hadj; lia.
    + intros p q Hp Hq. destruct (decide (q < mid)); [apply H4; lia|apply Hadj; lia].
Qed.

(** ** Copying an order *)
Lemma copy_spec (sub order : list nat) b : b + length sub <= length order ->
  for_range 0 (length sub) (fun i order => v ← sub !! i; wr order (b + i) v) order = Some (take b order ++ sub ++ drop (b + length sub) order).
Proof.
  intros Hl.
  match goal with |- for_range 0 _ ?body ?init = _ =>
    destruct (for_range_inv (fun i r => r = take b order ++ take i sub ++ drop (b + i) order) body 0 (length sub) init) as (r & -> & ->) end.
  - lia.
  - rewrite take_0. cbn. by rewrite Nat.add_0_r, take_drop.
  - intros i r Hi ->. destruct (lookup_lt_is_Some_2 sub i ltac:(lia)) as [v Hv]. rewrite Hv, bind_S.
    destruct (lookup_lt_is_Some_2 order (b + i) ltac:(lia)) as [w Hw].
    rewrite (wr_Some (take b order ++ _)) by (rewrite !app_length, !take_length, drop_length; lia). eexists. split; [done|].
    rewrite (drop_S order w (b + i)) by done. rewrite insert_app_r_alt by (rewrite take_length; lia). f_equal. rewrite take_length, Nat.min_l by lia.
    replace (b + i - b) with (length (take i sub) + 0) by (rewrite take_length; lia). rewrite insert_app_r. cbn [insert list_insert].
    rewrite (take_S_r _ _ _ Hv), <- (assoc_L (++)). cbn [app]. replace (b + S i) with (S (b + i)) by lia. done.
  - rewrite (take_ge sub) by lia. done.
Qed.

(** ** Adjacency by global ids *)
Lemma adjacent_sym g u v : fragment_ok g -> adjacent g u v -> adjacent g v u.
Proof.
  intros Hok (a & x & y & E1 & E2 & E3 & E4). destruct (arc_sym g Hok x y) as (b & B1 & B2); [by exists a|]. by exists b, y, x.
Qed.
Lemma adjacent_in g u v : adjacent g u v -> u ∈ fr_global g /\ v ∈ fr_global g.
Proof. intros (a & x & y & _ & _ & E1 & E2). split; by eapply elem_of_list_lookup_2. Qed.

Section Parts.
  Context (g : fragment) (parts : list fragment) (Hd : decomposed g parts) (Hnd : NoDup (fr_global g)) (Hok : fragment_ok g).

  Lemma parts_nodup : NoDup (concat (fr_global <$> parts)).
  Proof. by rewrite (dc_global _ _ Hd). Qed.
  Lemma part_unique l1 p l2 q u : parts = l1 ++ p :: l2 -> q ∈ parts -> u ∈ fr_global p -> u ∈ fr_global q -> p = q.
  Proof.
    intros E Hq Hp Hu. pose proof parts_nodup as H. rewrite E in H, Hq. rewrite fmap_app, concat_app in H. cbn in H. rewrite !NoDup_app in H. destruct H as (_ & H1 & _ & H2 & _).
    apply elem_of_app in Hq as [Hq|Hq].
    - exfalso. apply (H1 u); [|rewrite elem_of_app; by left]. apply elem_of_list_In, in_concat. exists (fr_global q). split; [apply elem_of_list_In, elem_of_list_fmap; eauto|by apply elem_of_list_In].
    - apply elem_of_cons in Hq as [->|Hq]; [done|]. exfalso. apply (H2 u); [done|]. apply elem_of_list_In, in_concat. exists (fr_global q). split; [apply elem_of_list_In, elem_of_list_fmap; eauto|by apply elem_of_list_In].
  Qed.
  Lemma part_adjacent l1 p l2 u v : parts = l1 ++ p :: l2 -> adjacent g u v -> u ∈ fr_global p -> adjacent p u v.
  Proof.
    intros E H Hu. apply (dc_adj _ _ Hd) in H as (q & Hq & H). destruct (adjacent_in _ _ _ H) as [Hqu _]. by rewrite (part_unique _ _ _ _ _ E Hq Hu Hqu).
  Qed.
  Lemma part_facts l1 p l2 : parts = l1 ++ p :: l2 -> fragment_ok p /\ 0 < fr_nodes p /\ connected p /\ NoDup (fr_global p) /\ (forall u, u ∈ fr_global p -> u ∈ fr_global g) /\
    (forall u v, adjacent p u v -> adjacent g u v) /\ (forall u, u ∈ fr_global p -> u ∉ concat (fr_global <$> l1)).
  Proof.
    intros E. destruct (dc_part _ _ Hd p) as (H1 & H2 & H3). { rewrite E, elem_of_app. right. apply elem_of_list_here. }
    pose proof parts_nodup as H. pose proof (dc_global _ _ Hd) as Hg. rewrite E in H, Hg. rewrite fmap_app, concat_app in H, Hg. cbn in H, Hg. rewrite !NoDup_app in H. destruct H as (_ & N1 & N2 & _ & _).
    split; [done|]. split; [done|]. split; [done|]. split; [done|]. split; [|split].
    - intros u Hu. rewrite <- Hg. rewrite !elem_of_app. auto.
    - intros u v Huv. apply (dc_adj _ _ Hd). exists p. split; [|done]. rewrite E, elem_of_app. right. apply elem_of_list_here.
    - intros u Hu Hin. apply (N1 u Hin). rewrite elem_of_app. by left.
  Qed.
End Parts.

(** A node of a connected graph with two nodes or more has a neighbour. *)
Lemma connected_neighbour p u : fragment_ok p -> connected p -> 2 <= fr_nodes p -> u ∈ fr_global p -> exists v, adjacent p u v.
Proof.
  intros Hok Hc Hn [x Hx]%elem_of_list_lookup. assert (x < fr_nodes p) as Hxn by (by apply lookup_lt_Some in Hx).
  set (y := if decide (x = 0) then 1 else 0). assert (y < fr_nodes p /\ y <> x) as [Hy Hne] by (unfold y; case_decide; lia).
  pose proof (Hc x y Hxn Hy) as Hr. destruct (rtc_inv _ _ Hr) as [?|(z & Hxz & _)]; [congruence|]. destruct (arc_lt p Hok _ _ Hxz) as [_ Hz]. destruct Hxz as (a & E1 & E2).
  destruct (lookup_lt_is_Some_2 (fr_global p) z Hz) as [v Hv]. exists v, a, x, z. done.
Qed.

(** ** The recursion *)
Section Rec.
  Context {St : Type} (asserts : bool) (g0 : fragment) (compute_separator : St -> fragment -> option (St * list bool)).
  Context (Hprogress : makes_progress g0 compute_separator).

  Definition sd_ok (g : fragment) (d : decomp) : Prop :=
    d_order d ≡ₚ fr_global g /\ exists a cs, d_tree d = layout (FNode a (fr_nodes g) cs FNil) 0 /\ a <= fr_nodes g /\
      decomposes (adjacent_positions g (d_order d)) cs 0 a /\ (forall p u, p < a -> d_order d !! p = Some u -> exists v, adjacent g u v).
  Definition enough (g : fragment) (fuel : nat) : Prop := forall l, NoDup l -> (forall u, u ∈ l -> exists v, adjacent g u v) -> length l < fuel.
  Definition rec_spec (fuel : nat) (rec : St -> fragment -> option (St * decomp)) : Prop :=
    forall st g, fragment_ok g -> NoDup (fr_global g) -> 0 < fr_nodes g -> (forall u, u ∈ fr_global g -> u ∈ fr_global g0) -> enough g fuel ->
    exists st' d, rec st g = Some (st', d) /\ sd_ok g d.

  Section Loop.
    Context (fuel : nat) (rec : St -> fragment -> option (St * decomp)) (Hrec : rec_spec fuel rec).
    Context (g : fragment) (Hok : fragment_ok g) (Hnd : NoDup (fr_global g)) (Hsub : forall u, u ∈ fr_global g -> u ∈ fr_global g0) (Hfuel : enough g (S fuel)).
    Context (parts : list fragment) (Hd : decomposed g parts).
    Notation n := (fr_nodes g).

    Definition linv (ds : list fragment) (s : sdloop (St := St)) : Prop := exists cs,
      s_tree s = layout (FNode 0 n cs FNil) 0 /\ s_pred s = (if fnil cs then 0 else 1 + last_root cs) /\
      length (s_order s) = n /\ s_begin s <= s_end s /\ s_end s <= n /\
      take (s_begin s) (s_order s) ++ drop (s_end s) (s_order s) ≡ₚ concat (fr_global <$> ds) /\
      decomposes (adjacent_positions g (s_order s)) cs 0 (s_begin s) /\
      (forall p u, p < s_begin s -> s_order s !! p = Some u -> exists v, adjacent g u v).

    (** The graph without the arcs at a separator *)
    Section Reduced.
      Context (part part' : fragment) (sep : list bool) (x0 : nat).
      Context (Hpok : fragment_ok part) (Hpok' : fragment_ok part') (Hpnd : NoDup (fr_global part)) (Hgl : fr_global part' = fr_global part).
      Context (Hsepl : length sep = fr_nodes part) (Hx0 : node_in sep x0 = true).
      Context (Harc : forall x y, arc part' x y <-> arc part x y /\ node_in sep x = false /\ node_in sep y = false).

      Lemma reduced_down u v : adjacent part' u v -> adjacent part u v.
      Proof.
        intros (a & x & y & E1 & E2 & E3 & E4). destruct (proj1 (Harc x y)) as ((b & B1 & B2) & _); [by exists a|]. rewrite Hgl in E3, E4. by exists b, x, y.
      Qed.
      Lemma reduced_up u v w w' : adjacent part u v -> adjacent part' u w -> adjacent part' v w' -> adjacent part' u v.
      Proof.
        intros (a & x & y & E1 & E2 & E3 & E4) (b & x1 & y1 & F1 & F2 & F3 & F4) (c & x2 & y2 & G1 & G2 & G3 & G4). rewrite Hgl in *.
        assert (x1 = x) as -> by (by eapply NoDup_lookup). assert (x2 = y) as -> by (by eapply NoDup_lookup).
        destruct (proj1 (Harc x y1)) as (_ & S1 & _); [by exists b|]. destruct (proj1 (Harc y y2)) as (_ & S2 & _); [by exists c|].
        destruct (proj2 (Harc x y)) as (d & D1 & D2); [split; [by exists a|done]|]. exists d, x, y. by rewrite Hgl.
      Qed.
      Lemma reduced_enough k : fr_nodes part < S k -> enough part' k.
      Proof.
        intros Hk l Hl Hadj. assert (x0 < fr_nodes part) as Hx by (rewrite <- Hsepl; by apply node_in_lt).
        destruct (lookup_lt_is_Some_2 (fr_global part) x0 Hx) as [u0 Hu0].
        enough (length (u0 :: l) <= fr_nodes part) by (cbn in *; lia). apply submseteq_length, NoDup_submseteq.
        - constructor; [|done]. intros Hin. destruct (Hadj _ Hin) as (v & a & x & y & E1 & E2 & E3 & E4). rewrite Hgl in E3.
          assert (x = x0) as -> by (by eapply (NoDup_lookup (fr_global part))). destruct (proj1 (Harc x0 y)) as (_ & S1 & _); [by exists a|]. congruence.
        - intros u [->|Hin]%elem_of_cons; [by eapply elem_of_list_lookup_2|]. destruct (Hadj _ Hin) as (v & [Hu _]%adjacent_in). by rewrite <- Hgl.
      Qed.
    End Reduced.

    Lemma concat_snoc (l : list fragment) p : concat (fr_global <$> (l ++ [p])) = concat (fr_global <$> l) ++ fr_global p.
    Proof. rewrite fmap_app, concat_app. cbn. by rewrite app_nil_r. Qed.

    Lemma sd_part_spec l1 part l2 s : parts = l1 ++ part :: l2 -> linv l1 s -> exists s', sd_part asserts compute_separator rec part s = Some s' /\ linv (l1 ++ [part]) s'.
    Proof.
      intros E (cs & T & Hpred & Hlen & Hbe & Hen & Hperm & Hdec & Hniso).
      destruct (part_facts g parts Hd Hnd _ _ _ E) as (Pok & Pn & Pc & Pnd & Psub & Padj & Pnew).
      assert (length (concat (fr_global <$> l1)) + fr_nodes part <= n) as Hroom.
      { pose proof (Permutation_length (dc_global _ _ Hd)) as H. rewrite E in H. rewrite fmap_app, concat_app, app_length in H. cbn in H. rewrite app_length in H. unfold fr_nodes. lia. }
      pose proof (Permutation_length Hperm) as Hpl. rewrite app_length, take_length, drop_length, Hlen, Nat.min_l in Hpl by lia.
      unfold sd_part. rewrite (proj2 (Nat.eqb_neq (fr_nodes part) 0)) by lia. replace (implb asserts (negb false)) with true by (by destruct asserts). cbn [chk]. rewrite bind_S.
      destruct (fr_nodes part =? 1) eqn:E1.
      - apply Nat.eqb_eq in E1. destruct (fr_global part) as [|v gl] eqn:Egl; [unfold fr_nodes in E1; rewrite Egl in E1; done|].
        assert (gl = []) as -> by (unfold fr_nodes in E1; rewrite Egl in E1; destruct gl; done).
        cbn [lookup list_lookup]. rewrite bind_S. rewrite (proj2 (Nat.eqb_neq (s_end s) 0)) by lia. cbn [negb chk]. rewrite bind_S.
        rewrite (wr_Some (s_order s)) by lia. rewrite bind_S. eexists. split; [done|]. exists cs. cbn [s_st s_tree s_order s_pred s_begin s_end].
        split; [done|]. split; [done|]. split; [by rewrite insert_length|]. split; [lia|]. split; [lia|]. split; [|split].
        + rewrite take_insert by lia. rewrite (drop_S _ v) by (apply list_lookup_insert; lia). rewrite drop_insert_gt by lia.
          rewrite concat_snoc, Egl, <- Hperm. replace (S (s_end s - 1)) with (s_end s) by lia. rewrite <- (assoc_L (++)). apply Permutation_app_head. apply Permutation_cons_append.
        + eapply dec_mono; [|exact Hdec]. intros p q Hp Hq (u & w & H1 & H2 & H3). rewrite list_lookup_insert_ne in H1, H2 by lia. by exists u, w.
        + intros p u Hp Hu. rewrite list_lookup_insert_ne in Hu by lia. by apply (Hniso p).
      - apply Nat.eqb_neq in E1. assert (2 <= fr_nodes part) as P2 by lia. clear E1.
        destruct (Hprogress (s_st s) part Pok Pc P2 Pnd) as (st1 & sep & -> & Hsepl & x0 & Hx0); [auto|]. rewrite bind_S. cbv beta iota.
        destruct (remove_separator_spec part Pok sep Hsepl) as (part' & -> & Pok' & Pgl' & Harc). rewrite bind_S.
        assert (fr_nodes part' = fr_nodes part) as Pn' by (unfold fr_nodes; by rewrite Pgl').
        assert (fr_nodes part < S fuel) as Hf.
        { apply (Hfuel (fr_global part) Pnd). intros u Hu. destruct (connected_neighbour part u Pok Pc P2 Hu) as [v Hv]. exists v. by apply Padj. }
        destruct (Hrec st1 part' Pok') as (st2 & sub & -> & Hso & a & scs & Hst & Ha & Hsd & Hsi).
        { by rewrite Pgl'. } { lia. } { intros u Hu. rewrite Pgl' in Hu. auto. } { by eapply reduced_enough. }
        rewrite bind_S. cbv beta iota zeta. rewrite Pgl' in Hso. pose proof (Permutation_length Hso) as Hsl. change (length (fr_global part)) with (fr_nodes part) in Hsl.
        set (t := mkNode (if fnil cs then 0 else 1) 0 0 n).
        assert (s_tree s = t :: layout cs 1) as T' by (rewrite T; cbn; by rewrite app_nil_r).
        assert (length (s_tree s) = 1 + fsize cs) as Hts by (rewrite T'; cbn; by rewrite layout_len).
        set (b := s_begin s) in *.
        set (nf := FNode (a + b) (fr_nodes part + b) (fshift b scs) FNil).
        assert (shift_node (1 + fsize cs) b <$> d_tree sub = layout nf (1 + fsize cs)) as Enew.
        { rewrite Hst, layout_shift, Pn'. done. }
        assert (exists tt, s_tree s !! s_pred s = Some tt /\
          wr (s_tree s) (s_pred s) (if s_pred s =? 0 then mkNode (1 + fsize cs) (t_right tt) (t_first tt) (t_last tt) else mkNode (t_left tt) (1 + fsize cs) (t_first tt) (t_last tt)) =
            Some (<[s_pred s := if s_pred s =? 0 then mkNode (1 + fsize cs) (t_right tt) (t_first tt) (t_last tt) else mkNode (t_left tt) (1 + fsize cs) (t_first tt) (t_last tt)]> (s_tree s)) /\
          <[s_pred s := if s_pred s =? 0 then mkNode (1 + fsize cs) (t_right tt) (t_first tt) (t_last tt) else mkNode (t_left tt) (1 + fsize cs) (t_first tt) (t_last tt)]> (s_tree s) ++ layout nf (1 + fsize cs)
            = layout (FNode 0 n (fapp cs nf) FNil) 0) as (tt & -> & Ewr & Etree).
        { rewrite Hpred, T'. destruct (fnil cs) eqn:Ecs.
          - destruct cs; [|done]. exists t. split; [done|]. split; [by rewrite wr_Some by (cbn; lia)|]. cbn. rewrite !app_nil_r. done.
          - destruct (layout_snoc cs (a + b) (fr_nodes part + b) (fshift b scs) 1 Ecs) as (nd & L1 & L2). exists nd. split; [done|].
            split; [rewrite wr_Some; [done|]; apply lookup_lt_Some in L1; cbn; lia|]. cbn [layout fnil fsize].
            assert (fnil (fapp cs nf) = false) as -> by (by destruct cs). rewrite app_nil_r. change (0 + 1) with 1. fold nf in L2. rewrite L2. done. }
        rewrite bind_S, Hts, Ewr, bind_S. rewrite copy_spec by lia. rewrite bind_S. rewrite Enew, Etree. eexists. split; [done|].
        exists (fapp cs nf). cbn [s_st s_tree s_order s_pred s_begin s_end]. split; [done|].
        set (order' := take b (s_order s) ++ d_order sub ++ drop (b + length (d_order sub)) (s_order s)).
        assert (forall p, p < b -> order' !! p = s_order s !! p) as O1. { intros p Hp. unfold order'. rewrite lookup_app_l by (rewrite take_length; lia). by rewrite lookup_take. }
        assert (forall p, p < length (d_order sub) -> order' !! (p + b) = d_order sub !! p) as O2.
        { intros p Hp. unfold order'. rewrite lookup_app_r by (rewrite take_length; lia). rewrite take_length, Nat.min_l by lia. rewrite lookup_app_l by lia. f_equal. lia. }
        assert (length order' = n) as Hlen' by (unfold order'; rewrite !app_length, take_length, drop_length; lia).
        assert (forall p u, p < b -> order' !! p = Some u -> u ∈ concat (fr_global <$> l1)) as O3.
        { intros p u Hp Hu. rewrite O1 in Hu by done. rewrite <- Hperm, elem_of_app. left. apply elem_of_list_lookup. exists p. by rewrite lookup_take. }
        assert (forall p u, b <= p < b + length (d_order sub) -> order' !! p = Some u -> u ∈ fr_global part) as O4.
        { intros p u Hp Hu. replace p with (p - b + b) in Hu by lia. rewrite O2 in Hu by lia. rewrite <- Hso. by eapply elem_of_list_lookup_2. }
        split.
        { assert (fnil (fapp cs nf) = false) as -> by (by destruct cs). unfold nf. by rewrite last_root_app. }
        split; [done|]. split; [lia|]. split; [lia|]. split; [|split].
        + assert (take (b + length (d_order sub)) order' = take b (s_order s) ++ d_order sub) as ->.
          { unfold order'. rewrite (assoc_L (++)). apply take_app_alt. rewrite app_length, take_length. lia. }
          assert (drop (s_end s) order' = drop (s_end s) (s_order s)) as ->.
          { unfold order'. rewrite (assoc_L (++)). rewrite drop_app_ge by (rewrite app_length, take_length; lia). rewrite app_length, take_length, Nat.min_l, drop_drop by lia. f_equal. lia. }
          rewrite concat_snoc, <- Hperm, Hso. rewrite <- !(assoc_L (++)). apply Permutation_app_head. apply Permutation_app_comm.
        + apply (dec_app _ _ _ 0 b).
          * eapply dec_mono; [|exact Hdec]. intros p q Hp Hq (u & w & H1 & H2 & H3). rewrite O1 in H1, H2 by lia. by exists u, w.
          * unfold nf. cbn [decomposes]. split; [|split; [lia|split; [lia|intros p q Hp Hq; lia]]].
            apply (dec_shift (adjacent_positions part' (d_order sub)) _ b scs 0 a); [|done].
            intros p q Hp Hq (u & v & H1 & H2 & H3). rewrite O2 in H1, H2 by lia. exists u, v. split; [done|]. split; [done|].
            destruct (Hsi p u) as [w Hw]; [lia|done|]. destruct (Hsi q v) as [w' Hw']; [lia|done|].
            eapply (reduced_up part part' sep); try done. eapply (part_adjacent g parts Hd Hnd); [done|done|]. rewrite <- Hso. by eapply elem_of_list_lookup_2.
          * intros p q Hp Hq. split; intros (u & v & H1 & H2 & H3).
            -- apply (O3 p) in H1; [|lia]. apply (O4 q) in H2; [|lia]. apply adjacent_sym in H3; [|done]. pose proof (part_adjacent g parts Hd Hnd _ _ _ _ _ E H3 H2) as Hpa.
               destruct (adjacent_in _ _ _ Hpa) as [_ Hu]. by apply (Pnew u).
            -- apply (O4 q) in H1; [|lia]. apply (O3 p) in H2; [|lia]. pose proof (part_adjacent g parts Hd Hnd _ _ _ _ _ E H3 H1) as Hpa.
               destruct (adjacent_in _ _ _ Hpa) as [_ Hu]. by apply (Pnew v).
        + intros p u Hp Hu. destruct (decide (p < b)) as [Hpb|Hpb]; [apply (Hniso p); [done|by rewrite <- O1]|].
          apply (O4 p) in Hu; [|lia]. destruct (connected_neighbour part u Pok Pc P2 Hu) as [v Hv]. exists v. by apply Padj.
    Qed.
  End Loop.

  Lemma separator_decomposition_spec fuel : rec_spec fuel (separator_decomposition asserts compute_separator fuel).
  Proof.
    induction fuel as [|fuel IH]; intros st g Hok Hnd Hn Hsub Hfuel.
    { specialize (Hfuel [] ltac:(constructor)). cbn in Hfuel. enough (0 < 0) by lia. apply Hfuel. intros u Hu. by apply elem_of_nil in Hu. }
    cbn [separator_decomposition]. destruct (fr_nodes g =? 1) eqn:E1.
    - apply Nat.eqb_eq in E1. eexists _, _. split; [done|]. split; [done|]. exists 0, FNil. cbn [d_tree d_order]. rewrite E1. split; [done|]. split; [lia|]. split; [done|]. lia.
    - destruct (connected_components_spec asserts g Hok Hn) as (parts & -> & Hd). rewrite bind_S.
      match goal with |- context [for_each parts ?body ?init] => destruct (for_each_inv (linv g) body parts init) as (s & -> & cs & T & Hpred & Hlen & Hbe & Hen & Hperm & Hdec & Hniso) end.
      + exists FNil. cbn. rewrite replicate_length. split; [done|]. split; [done|]. split; [done|]. split; [lia|]. split; [lia|]. split; [|split; [done|lia]].
        rewrite take_0. cbn. rewrite drop_ge by (rewrite replicate_length; done). done.
      + intros l1 x l2 s E Hs. by eapply sd_part_spec.
      + rewrite bind_S. rewrite T. cbn [layout lookup list_lookup]. rewrite bind_S. rewrite (wr_Some (_ :: _)) by (cbn; lia). rewrite bind_S. cbn [insert list_insert t_left t_right t_last].
        eexists _, _. split; [done|]. rewrite (dc_global _ _ Hd) in Hperm. pose proof (Permutation_length Hperm) as Hl.
        rewrite app_length, take_length, drop_length, Hlen, Nat.min_l in Hl by lia. change (length (fr_global g)) with (fr_nodes g) in Hl.
        assert (s_end s = s_begin s) as Ebe by lia. rewrite Ebe in Hperm. rewrite take_drop in Hperm. split; [done|]. exists (s_begin s), cs. cbn [d_tree d_order]. split; [done|]. split; [lia|done].
  Qed.
End Rec.
