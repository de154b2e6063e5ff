(** The value of a flow and the size of cuts. *)
From Verif Require Import Base UtilSpec GraphSpec FlowModel FlowSpec FlowArray.

Ltac Zify.zify_post_hook ::= idtac.

Definition zsum (f : nat -> Z) (l : list nat) : Z := foldr (fun a acc => f a + acc)%Z 0%Z l.
Lemma zsum_cons f a l : zsum f (a :: l) = (f a + zsum f l)%Z.
Proof. done. Qed.
Lemma zsum_ext f f' l : (forall a, a ∈ l -> f a = f' a) -> zsum f l = zsum f' l.
Proof.
  intros H. induction l as [|a l IH]; [done|]. rewrite !zsum_cons. rewrite (H a) by constructor. f_equal. apply IH.
  intros z Hz. apply H. by constructor.
Qed.
Lemma zsum_change f f' a l : NoDup l -> a ∈ l -> (forall b, b <> a -> f' b = f b) -> zsum f' l = (zsum f l + (f' a - f a))%Z.
Proof.
  intros Hnd Ha Hne. induction l as [|b l IH]; [by apply elem_of_nil in Ha|].
  apply NoDup_cons in Hnd as [Hb Hnd]. rewrite !zsum_cons. apply elem_of_cons in Ha as [->|Ha].
  - rewrite (zsum_ext f' f l); [lia|]. intros z Hz. apply Hne. intros ->. done.
  - rewrite IH by done. rewrite (Hne b); [lia|]. intros ->. done.
Qed.
Lemma zsum_le f (P : nat -> bool) l : (forall a, a ∈ l -> f a <= (if P a then 1 else 0))%Z -> (zsum f l <= Z.of_nat (length (filter (fun a => P a = true) l)))%Z.
Proof.
  intros H. induction l as [|a l IH]; [done|]. rewrite zsum_cons, filter_cons.
  pose proof (H a ltac:(constructor)) as Ha. assert (zsum f l <= Z.of_nat (length (filter (λ a, P a = true) l)))%Z as Hl.
  { apply IH. intros z Hz. apply H. by constructor. }
  destruct (P a) eqn:E.
  - rewrite decide_True by done. cbn [length]. lia.
  - rewrite decide_False by congruence. lia.
Qed.
Lemma zsum_eq f (P : nat -> bool) l : (forall a, a ∈ l -> f a = (if P a then 1 else 0))%Z -> (zsum f l = Z.of_nat (length (filter (fun a => P a = true) l)))%Z.
Proof.
  intros H. induction l as [|a l IH]; [done|]. rewrite zsum_cons, filter_cons.
  pose proof (H a ltac:(constructor)) as Ha. assert (zsum f l = Z.of_nat (length (filter (λ a, P a = true) l)))%Z as Hl.
  { apply IH. intros z Hz. apply H. by constructor. }
  destruct (P a) eqn:E.
  - rewrite decide_True by done. cbn [length]. lia.
  - rewrite decide_False by congruence. lia.
Qed.

Definition b2z (b : bool) : Z := if b then 1%Z else 0%Z.

Section Net.
  Context (g : fragment) (Hok : fragment_ok g).
  Notation n := (fr_nodes g).
  Notation m := (fr_arcs g).

  (** The flow of arc [a] over the border of [S]. *)
  Definition term (sat S : list bool) (a : nat) : Z :=
    match fr_tail g !! a, fr_head g !! a with
    | Some x, Some y => if node_in sat a then (b2z (node_in S x) - b2z (node_in S y))%Z else 0%Z
    | _, _ => 0%Z
    end.
  Definition net (sat S : list bool) : Z := zsum (term sat S) (seq 0 m).
  (** An edge is not used in both directions. *)
  Definition excl (sat : list bool) : Prop := forall a b, fr_back g !! a = Some b -> node_in sat a = true -> node_in sat b = false.

  Lemma net_zero S : net (replicate m false) S = 0%Z.
  Proof using.
    unfold net. assert (forall l, zsum (term (replicate m false) S) l = 0%Z) as H; [|apply H].
    induction l as [|a l IH]; [done|]. rewrite zsum_cons, IH. unfold term.
    destruct (fr_tail g !! a); [|done]. destruct (fr_head g !! a); [|done].
    unfold node_in at 1. destruct (replicate m false !! a) as [b|] eqn:E; [|done].
    apply lookup_replicate in E as [-> _]. done.
  Qed.
  Lemma net_write sat S a x y b : length sat = m -> a < m -> fr_tail g !! a = Some x -> fr_head g !! a = Some y -> node_in sat a = negb b ->
    net (<[a:=b]> sat) S = (net sat S + (if b then 1 else -1) * (b2z (node_in S x) - b2z (node_in S y)))%Z.
  Proof using.
    intros Hl Ha Hx Hy Hs. unfold net. rewrite (zsum_change (term sat S) _ a).
    - unfold term. rewrite Hx, Hy, Hs. rewrite node_in_insert by lia. rewrite decide_True by done. destruct b; cbn [negb]; lia.
    - apply NoDup_seq.
    - apply elem_of_seq. lia.
    - intros c Hc. unfold term. rewrite node_in_insert by lia. rewrite decide_False by congruence. done.
  Qed.

  (** :196-200 *)
  Definition push (sat : list bool) (a b : nat) : list bool := if node_in sat b then <[b:=false]> sat else <[a:=true]> sat.
  Lemma push_net sat S a b x y : length sat = m -> a < m -> fr_back g !! a = Some b -> fr_tail g !! a = Some x -> fr_head g !! a = Some y ->
    node_in sat a = false -> net (push sat a b) S = (net sat S + (b2z (node_in S x) - b2z (node_in S y)))%Z.
  Proof using Hok.
    intros Hl Ha Hb Hx Hy Hs. unfold push. destruct (frag_back g Hok a Ha) as (b' & Hb' & Hbm & _). rewrite Hb in Hb'. injection Hb' as <-.
    destruct (fo_swap _ Hok _ _ Hb) as [H1 H2]. rewrite Hx in H2. rewrite Hy in H1.
    destruct (node_in sat b) eqn:E.
    - rewrite (net_write sat S b y x false) by done. lia.
    - rewrite (net_write sat S a x y true) by done. lia.
  Qed.
  Lemma push_len sat a b : length (push sat a b) = length sat.
  Proof using. unfold push. destruct (node_in sat b); apply insert_length. Qed.
  Lemma push_excl sat a b x y : length sat = m -> a < m -> fr_back g !! a = Some b -> fr_tail g !! a = Some x -> fr_head g !! a = Some y -> x <> y ->
    node_in sat a = false -> excl sat -> excl (push sat a b).
  Proof using Hok.
    intros Hl Ha Hb Hx Hy Hxy Hs He. unfold push. destruct (frag_back g Hok a Ha) as (b' & Hb' & Hbm & Hba). rewrite Hb in Hb'. injection Hb' as <-.
    destruct (fo_swap _ Hok _ _ Hb) as [H1 H2].
    assert (a <> b) as Hab by (intros ->; congruence).
    destruct (node_in sat b) eqn:E; intros c d Hcd; rewrite !node_in_insert by lia.
    - case_decide; [done|]. case_decide; [done|]. by apply He.
    - pose proof (fo_back _ Hok _ _ Hcd) as Hdc. case_decide as Hc.
      + subst c. intros _. rewrite Hb in Hcd. injection Hcd as <-. by rewrite decide_False.
      + case_decide as Hd; [|by apply He]. subst d. rewrite Hb in Hdc. injection Hdc as <-. congruence.
  Qed.
  Lemma push_others sat a b c : length sat = m -> a < m -> b < m -> node_in (push sat a b) c = true -> c = a \/ node_in sat c = true.
  Proof using.
    intros Hl Ha Hb. unfold push. destruct (node_in sat b); rewrite node_in_insert by lia.
    - case_decide; [done|auto].
    - case_decide; auto.
  Qed.

  Lemma net_le_cut sat S : (net sat S <= Z.of_nat (cut_arcs g S))%Z.
  Proof using.
    unfold net, cut_arcs. apply (zsum_le _ (leaves g S)). intros a _. unfold term, leaves.
    destruct (fr_tail g !! a); [|done]. destruct (fr_head g !! a); [|done].
    destruct (node_in sat a), (node_in S _), (node_in S _); cbn; lia.
  Qed.
  Lemma net_eq_cut sat S : excl sat -> (forall a, leaves g S a = true -> node_in sat a = true) -> net sat S = Z.of_nat (cut_arcs g S).
  Proof using Hok.
    intros He Hs. unfold net, cut_arcs. apply (zsum_eq _ (leaves g S)). intros a Ha. apply elem_of_seq in Ha.
    destruct (frag_tail g Hok a ltac:(lia)) as (x & Hx & _). destruct (frag_head g Hok a ltac:(lia)) as (y & Hy & _).
    destruct (frag_back g Hok a ltac:(lia)) as (b & Hb & _). destruct (fo_swap _ Hok _ _ Hb) as [H1 H2].
    pose proof (Hs a) as Hsa. pose proof (Hs b) as Hsb. pose proof (He _ _ Hb) as Hex.
    unfold term. unfold leaves in *. rewrite Hx, Hy in *. rewrite H1, H2 in Hsb.
    destruct (node_in S x), (node_in S y); cbn [andb negb b2z] in *.
    - destruct (node_in sat a); lia.
    - rewrite Hsa by done. lia.
    - destruct (node_in sat a) eqn:E; [|lia]. rewrite (Hex eq_refl) in Hsb. specialize (Hsb eq_refl). discriminate.
    - destruct (node_in sat a); lia.
  Qed.

  (** Both directions of a cut have the same size. *)
  Lemma back_perm : (fun a => default 0 (fr_back g !! a)) <$> seq 0 m ≡ₚ seq 0 m.
  Proof using Hok.
    set (f := fun a => default 0 (fr_back g !! a)).
    assert (forall a, a < m -> f a < m /\ f (f a) = a) as Hf.
    { intros a Ha. destruct (frag_back g Hok a Ha) as (b & Hb & Hbm & Hba). unfold f. rewrite Hb. cbn. rewrite Hba. done. }
    apply NoDup_Permutation.
    - apply (NoDup_fmap_2_strong f); [|apply NoDup_seq]. intros a b Ha Hb Hab. apply elem_of_seq in Ha, Hb.
      destruct (Hf a ltac:(lia)) as [_ H1]. destruct (Hf b ltac:(lia)) as [_ H2]. congruence.
    - apply NoDup_seq.
    - intros x. rewrite elem_of_list_fmap, elem_of_seq. split.
      + intros (a & -> & Ha). apply elem_of_seq in Ha. destruct (Hf a ltac:(lia)). lia.
      + intros Hx. destruct (Hf x ltac:(lia)) as [H1 H2]. exists (f x). split; [done|]. apply elem_of_seq. lia.
  Qed.
  Lemma filter_fmap_len (f : nat -> nat) (P : nat -> bool) l : length (filter (fun a => P a = true) (f <$> l)) = length (filter (fun a => P (f a) = true) l).
  Proof using.
    induction l as [|a l IH]; [done|]. cbn [fmap list_fmap]. rewrite !filter_cons. destruct (P (f a)) eqn:E.
    - rewrite !decide_True by done. cbn. f_equal. done.
    - rewrite !decide_False by congruence. done.
  Qed.
  Lemma filter_len_ext (P Q : nat -> bool) l : (forall a, a ∈ l -> P a = Q a) -> length (filter (fun a => P a = true) l) = length (filter (fun a => Q a = true) l).
  Proof using.
    intros H. induction l as [|a l IH]; [done|]. rewrite !filter_cons. rewrite (H a) by constructor.
    assert (length (filter (λ a, P a = true) l) = length (filter (λ a, Q a = true) l)) as Hl.
    { apply IH. intros z Hz. apply H. by constructor. }
    destruct (Q a) eqn:E.
    - rewrite !decide_True by done. cbn. f_equal. done.
    - rewrite !decide_False by congruence. done.
  Qed.
  Lemma node_in_negb (S : list bool) x : x < length S -> node_in (negb <$> S) x = negb (node_in S x).
  Proof using. intros Hx. unfold node_in. rewrite list_lookup_fmap. destruct (lookup_lt_is_Some_2 S x Hx) as [b ->]. done. Qed.
  Lemma cut_arcs_negb S : length S = n -> cut_arcs g (negb <$> S) = cut_arcs g S.
  Proof using Hok.
    intros HS. unfold cut_arcs.
    assert (length (filter (fun a => leaves g S a = true) (seq 0 m)) = length (filter (fun a => leaves g S a = true) ((fun a => default 0 (fr_back g !! a)) <$> seq 0 m))) as ->.
    { by rewrite back_perm. }
    rewrite filter_fmap_len. apply (filter_len_ext (leaves g (negb <$> S)) (fun a => leaves g S (default 0 (fr_back g !! a)))).
    intros a Ha. apply elem_of_seq in Ha.
    destruct (frag_tail g Hok a ltac:(lia)) as (x & Hx & Hxn). destruct (frag_head g Hok a ltac:(lia)) as (y & Hy & Hyn).
    destruct (frag_back g Hok a ltac:(lia)) as (b & Hb & _). destruct (fo_swap _ Hok _ _ Hb) as [H1 H2].
    rewrite Hb. cbn. unfold leaves. rewrite H1, H2, Hx, Hy. rewrite !node_in_negb by lia. by destruct (node_in S x), (node_in S y).
  Qed.
  Lemma separates_negb S A B : length B = n -> separates g S A B -> separates g (negb <$> S) B A.
  Proof using.
    intros HB (H1 & H2 & H3). split; [by rewrite fmap_length|]. split.
    - intros x Hx. apply node_in_lt in Hx as Hlt. rewrite node_in_negb by lia. by rewrite (H3 x Hx).
    - intros x Hx. pose proof (H2 x Hx) as HS. apply node_in_lt in HS as Hlt. rewrite node_in_negb by done. by rewrite HS.
  Qed.
End Net.
