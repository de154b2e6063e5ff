(** Proofs about VerifyModel. *)
From Verif Require Import Base ProtobufModel ChFileModel GraphSpec VerifyModel VerifySpec.
Ltac Zify.zify_post_hook ::= idtac.

(** ** min_max.h *)
Lemma first_position_spec {T} (better : T -> T -> bool) v : strict_order better -> v <> [] -> exists pos, first_position_of better v = Some pos /\ first_best better v pos.
Proof.
  intros (Hirr & Htr & Hneg) Hv. unfold first_position_of.
  destruct (for_range_inv (fun j pos => exists x, v !! pos = Some x /\ pos < j /\ (forall i y, i < j -> v !! i = Some y -> better y x = false) /\ (forall i y, i < pos -> v !! i = Some y -> better x y = true))
    (fun i pos => x ← v !! i; y ← v !! pos; Some (if better x y then i else pos)) 1 (length v) 0) as (pos & E & x & Hx & _ & H1 & H2).
  - destruct v; [done|cbn; lia].
  - destruct v as [|x v]; [done|]. exists x. split; [done|]. split; [lia|]. split; [|intros; lia]. intros i y Hi Hy. replace i with 0 in Hy by lia. cbn in Hy. simplify_eq. apply Hirr.
  - intros j pos Hj (x & Hx & Hlt & H1 & H2). destruct (lookup_lt_is_Some_2 v j) as [z Hz]; [lia|]. rewrite Hz, Hx. cbn [mbind option_bind]. eexists. split; [done|]. destruct (better z x) eqn:Eb.
    + exists z. split; [done|]. split; [lia|]. split.
      * intros i y Hi Hy. destruct (decide (i = j)) as [-> |]; [simplify_eq; apply Hirr|]. destruct (better y z) eqn:Ey; [|done]. rewrite <- (H1 i y); [|lia|done]. symmetry. by apply (Htr _ z).
      * intros i y Hi Hy. specialize (H1 i y Hi Hy). destruct (Hneg z y x Eb) as [?|?]; congruence.
    + exists x. split; [done|]. split; [lia|]. split; [|done]. intros i y Hi Hy. destruct (decide (i = j)) as [-> |]; [by simplify_eq|]. apply (H1 i); [lia|done].
  - exists pos. split; [done|]. exists x. split; [done|]. split; [|done]. intros i y Hy. apply (H1 i); [by eapply lookup_lt_Some|done].
Qed.
Lemma element_of_spec {T} (better : T -> T -> bool) v : strict_order better -> v <> [] ->
  exists x, element_of better v = Some x /\ x ∈ v /\ forall y, y ∈ v -> better y x = false.
Proof.
  intros Ho Hv. destruct (first_position_spec better v Ho Hv) as (pos & E & x & Hx & H & _). exists x. unfold element_of. rewrite E. cbn. split; [done|]. split; [by eapply elem_of_list_lookup_2|].
  intros y (i & Hi)%elem_of_list_lookup. by apply (H i).
Qed.
Lemma order_max : strict_order (fun x y : nat => y <? x).
Proof. split; [|split]; intros *; rewrite ?Nat.ltb_lt, ?Nat.ltb_ge; lia. Qed.
Lemma order_min : strict_order (fun x y : nat => x <? y).
Proof. split; [|split]; intros *; rewrite ?Nat.ltb_lt, ?Nat.ltb_ge; lia. Qed.
Lemma max_element_spec v : v <> [] -> exists m, max_element_of v = Some m /\ m ∈ v /\ forall y, y ∈ v -> y <= m.
Proof. intros Hv. destruct (element_of_spec _ v order_max Hv) as (m & E & Hm & H). exists m. split; [done|]. split; [done|]. intros y Hy. apply H in Hy. apply Nat.ltb_ge in Hy. lia. Qed.

(** ** verify.cpp *)
Lemma throw_if_then {A} b (k : () -> option (result A)) : andthen (throw_if b) k = if b then Some Throw else k tt.
Proof. by destruct b. Qed.
Lemma std_is_sorted_spec v : std_is_sorted v = true <-> forall i a b, v !! i = Some a -> v !! S i = Some b -> a <= b.
Proof.
  induction v as [|x v IH]; [split; [done|]; by intros|]. destruct v as [|y v].
  { split; [|done]. intros _ i a b _ H. by destruct i. }
  change (std_is_sorted (x :: y :: v)) with (if y <? x then false else std_is_sorted (y :: v)). destruct (Nat.ltb_spec y x) as [Hlt|Hge].
  - split; [done|]. intros H. specialize (H 0 x y eq_refl eq_refl). lia.
  - rewrite IH. split.
    + intros H [|i] a b Ha Hb; [cbn in Ha, Hb; by simplify_eq|]. by apply (H i).
    + intros H i a b Ha Hb. by apply (H (S i)).
Qed.
Lemma sorted_le v i j a b : std_is_sorted v = true -> i <= j -> v !! i = Some a -> v !! j = Some b -> a <= b.
Proof.
  rewrite std_is_sorted_spec. intros H Hij. revert b. induction Hij as [|j Hij IH]; intros b Ha Hb; [simplify_eq; lia|].
  destruct (lookup_lt_is_Some_2 v j) as [c Hc]; [apply lookup_lt_Some in Hb; lia|]. specialize (IH c Ha Hc). specialize (H j c b Hc Hb). lia.
Qed.
Lemma existsb_bound n l : existsb (fun x => n <=? x) l = false <-> Forall (fun x => x < n) l.
Proof.
  induction l as [|x l IH]; [by split|]. cbn. rewrite orb_false_iff, Forall_cons, IH, Nat.leb_gt. done.
Qed.
Lemma last_at {A} (l : list A) : last l = l !! (length l - 1).
Proof. rewrite last_lookup. f_equal. lia. Qed.

Lemma check_graph_spec fo head : fo <> [] -> exists r, check_if_graph_is_valid fo head = Some r /\ (r = Ret tt <-> csr (length fo - 1) fo head).
Proof.
  intros Hne. assert (0 < length fo) as Hl by (destruct fo; [done|cbn; lia]). unfold check_if_graph_is_valid. rewrite last_at.
  destruct (lookup_lt_is_Some_2 fo 0 Hl) as [f Hf]. destruct (lookup_lt_is_Some_2 fo (length fo - 1)) as [b Hb]; [lia|]. rewrite Hf, Hb. cbn [mbind option_bind]. cbv zeta. rewrite !throw_if_then.
  destruct (Nat.eqb_spec f 0) as [-> |Hf0]; cbn [negb].
  2:{ eexists. split; [done|]. split; [done|]. intros [_ H _ _ _]. congruence. }
  destruct (Nat.eqb_spec b (length head)) as [-> |Hbl]; cbn [negb].
  2:{ eexists. split; [done|]. split; [done|]. intros [_ _ _ H _]. congruence. }
  destruct (std_is_sorted fo) eqn:Es; cbn [negb].
  2:{ eexists. split; [done|]. split; [done|]. intros [_ _ H _ _]. assert (std_is_sorted fo = true) by (by apply std_is_sorted_spec). congruence. }
  unfold throw_if. eexists. split; [done|]. destruct (existsb _ head) eqn:Ex.
  - split; [done|]. intros [_ _ _ _ H]. assert (existsb (fun x => length fo - 1 <=? x) head = false) by (apply existsb_bound, Forall_forall; done). congruence.
  - split; [intros _|done]. apply existsb_bound in Ex. split; [lia|done|by apply std_is_sorted_spec|done|by apply Forall_forall].
Qed.

(** The conditions as the code checks them. *)
Record ipp_arrays (period : nat) (f dep tr : list nat) : Prop := {
  ia_first : f !! 0 = Some 0;
  ia_last : f !! (length f - 1) = Some (length dep);
  ia_mono : forall i a b, f !! i = Some a -> f !! S i = Some b -> a < b;
  ia_len : length tr = length dep;
  ia_sorted : forall i b e, f !! i = Some b -> f !! S i = Some e -> std_is_sorted (take (e - b) (drop b dep)) = true;
  ia_period : Forall (fun x => x < period) dep }.

Lemma each_arc_spec f : 0 < length f -> exists r, each_arc_has_one f = Some r /\ (r = Ret tt <-> forall i a b, f !! i = Some a -> f !! S i = Some b -> a <> b).
Proof.
  intros Hl. unfold each_arc_has_one.
  destruct (for_range_inv (fun j (r : result ()) => r = Ret tt <-> forall i a b, S i < j -> f !! i = Some a -> f !! S i = Some b -> a <> b)
    (fun i r => andthen (Some r) (fun _ => x ← f !! (i - 1); y ← f !! i; throw_if (x =? y))) 1 (length f) (Ret tt)) as (r & E & H).
  - lia.
  - split; [|done]. intros _ i a b Hi. lia.
  - intros j r Hj H. destruct (lookup_lt_is_Some_2 f (j - 1)) as [x Hx]; [lia|]. destruct (lookup_lt_is_Some_2 f j) as [y Hy]; [lia|]. rewrite Hx, Hy. cbn [mbind option_bind].
    destruct r as [[]|].
    + cbn [andthen]. unfold throw_if. eexists. split; [done|]. destruct (Nat.eqb_spec x y) as [-> |Hne].
      * split; [done|]. intros Hc. exfalso. apply (Hc (j - 1) y y); [lia|done|by replace (S (j - 1)) with j by lia|done].
      * split; [|done]. intros _ i a b Hi Ha Hb. destruct (decide (S i = j)) as [<- |].
        { replace (S i - 1) with i in Hx by lia. by simplify_eq. }
        apply (proj1 H eq_refl i); [lia|done..].
    + cbn [andthen]. eexists. split; [done|]. split; [done|]. intros Hc. assert (@Throw () = Ret tt) as Hbad; [|done]. apply H. intros i a b Hi. apply Hc. lia.
  - exists r. split; [done|]. rewrite H. split; intros Hc i a b Ha Hb; [|by apply (Hc i)]. apply (Hc i a b); [by eapply lookup_lt_Some|done..].
Qed.
Lemma sorted_within_spec f dep : std_is_sorted f = true -> f !! (length f - 1) = Some (length dep) ->
  exists r, sorted_within_arcs f dep = Some r /\ (r = Ret tt <-> forall i b e, f !! i = Some b -> f !! S i = Some e -> std_is_sorted (take (e - b) (drop b dep)) = true).
Proof.
  intros Hs Hlast. unfold sorted_within_arcs.
  destruct (for_range_inv (fun j (r : result ()) => r = Ret tt <-> forall i b e, i < j -> f !! i = Some b -> f !! S i = Some e -> std_is_sorted (take (e - b) (drop b dep)) = true)
    (fun a r => andthen (Some r) (fun _ => b ← f !! a; e ← f !! (a + 1); _ ← chk ((b <=? e) && (e <=? length dep)); throw_if (negb (std_is_sorted (take (e - b) (drop b dep)))))) 0 (length f - 1) (Ret tt)) as (r & E & H).
  - lia.
  - split; [|done]. intros _ i b e Hi. lia.
  - intros j r Hj H. destruct (lookup_lt_is_Some_2 f j) as [b Hb]; [lia|]. destruct (lookup_lt_is_Some_2 f (S j)) as [e He]; [lia|]. replace (j + 1) with (S j) by lia. rewrite Hb, He. cbn [mbind option_bind].
    assert (b <= e) as Hbe by (by apply (sorted_le f j (S j)); [|lia|..]). assert (e <= length dep) as Hed by (apply (sorted_le f (S j) (length f - 1)); [done|lia|done..]).
    rewrite (leb_correct _ _ Hbe), (leb_correct _ _ Hed). cbn [andb chk mbind option_bind].
    destruct r as [[]|].
    + cbn [andthen]. unfold throw_if. eexists. split; [done|]. destruct (std_is_sorted (take (e - b) (drop b dep))) eqn:Et; cbn [negb].
      * split; [|done]. intros _ i b' e' Hi Hb' He'. destruct (decide (i = j)) as [-> |]; [by simplify_eq|]. apply (proj1 H eq_refl i); [lia|done..].
      * split; [done|]. intros Hc. rewrite (Hc j b e) in Et; [done|lia|done..].
    + cbn [andthen]. eexists. split; [done|]. split; [done|]. intros Hc. assert (@Throw () = Ret tt) as Hbad; [|done]. apply H. intros i b' e' Hi. apply Hc. lia.
  - exists r. split; [done|]. rewrite H. split; intros Hc i b e Hb He; [|by apply (Hc i)]. apply (Hc i b e); [apply lookup_lt_Some in He; lia|done..].
Qed.
Lemma check_ipp_arrays period f dep tr : f <> [] -> exists r, check_if_arc_ipp_are_valid period f dep tr = Some r /\ (r = Ret tt <-> ipp_arrays period f dep tr).
Proof.
  intros Hne. assert (0 < length f) as Hl by (destruct f; [done|cbn; lia]). unfold check_if_arc_ipp_are_valid. rewrite last_at.
  destruct (lookup_lt_is_Some_2 f 0 Hl) as [x Hx]. destruct (lookup_lt_is_Some_2 f (length f - 1)) as [b Hb]; [lia|]. rewrite Hx, Hb. cbn [mbind option_bind]. rewrite !throw_if_then.
  destruct (Nat.eqb_spec x 0) as [-> |Hx0]; cbn [negb].
  2:{ eexists. split; [done|]. split; [done|]. intros [H _ _ _ _ _]. congruence. }
  destruct (Nat.eqb_spec b (length dep)) as [-> |Hbl]; cbn [negb].
  2:{ eexists. split; [done|]. split; [done|]. intros [_ H _ _ _ _]. congruence. }
  destruct (std_is_sorted f) eqn:Es; cbn [negb].
  2:{ eexists. split; [done|]. split; [done|]. intros [_ _ H _ _ _]. assert (std_is_sorted f = true); [|congruence]. apply std_is_sorted_spec. intros i p q Hp Hq. specialize (H i p q Hp Hq). lia. }
  destruct (each_arc_spec f Hl) as (r1 & -> & H1). destruct r1 as [[]|]; cbn [andthen].
  2:{ eexists. split; [done|]. split; [done|]. intros [_ _ H _ _ _]. assert (@Throw () = Ret tt); [|done]. apply H1. intros i p q Hp Hq. specialize (H i p q Hp Hq). lia. }
  specialize (proj1 H1 eq_refl) as Hdiff. destruct (Nat.eqb_spec (length tr) (length dep)) as [Ht|Ht]; cbn [negb].
  2:{ eexists. split; [done|]. split; [done|]. by intros [_ _ _ H _ _]. }
  destruct (sorted_within_spec f dep Es Hb) as (r2 & -> & H2). destruct r2 as [[]|]; cbn [andthen].
  2:{ eexists. split; [done|]. split; [done|]. intros [_ _ _ _ H _]. assert (@Throw () = Ret tt); [|done]. by apply H2. }
  unfold throw_if. eexists. split; [done|]. destruct (existsb _ dep) eqn:Ex.
  - split; [done|]. intros [_ _ _ _ _ H]. apply existsb_bound in H. congruence.
  - split; [intros _|done]. apply existsb_bound in Ex. split; try done; [|by apply H2]. intros i p q Hp Hq. pose proof (proj1 (std_is_sorted_spec f) Es i p q Hp Hq). specialize (Hdiff i p q Hp Hq). lia.
Qed.
Lemma sorted_points (l : list (nat * nat)) : std_is_sorted (fst <$> l) = true <-> forall i j p q, i <= j -> l !! i = Some p -> l !! j = Some q -> fst p <= fst q.
Proof.
  split.
  - intros H i j p q Hij Hp Hq. apply (sorted_le (fst <$> l) i j); [done|done|by rewrite list_lookup_fmap, Hp|by rewrite list_lookup_fmap, Hq].
  - intros H. apply std_is_sorted_spec. intros i a b Ha Hb. rewrite list_lookup_fmap in Ha, Hb. apply fmap_Some in Ha as (p & Hp & ->). apply fmap_Some in Hb as (q & Hq & ->). apply (H i (S i)); [lia|done..].
Qed.
Lemma concat_take_S {A} (ls : list (list A)) i l : ls !! i = Some l -> concat (take (S i) ls) = concat (take i ls) ++ l.
Proof. intros H. rewrite (take_S_r _ _ _ H), concat_app. cbn. by rewrite app_nil_r. Qed.
Lemma slice_of {A} (ls : list (list A)) i l : ls !! i = Some l -> take (length l) (drop (length (concat (take i ls))) (concat ls)) = l.
Proof.
  intros H. rewrite <- (take_drop_middle ls i l H) at 2. rewrite concat_app, concat_cons. rewrite drop_app_alt by done. by rewrite take_app_alt.
Qed.
Lemma ipp_arrays_spec period f dep tr : ipp_arrays period f dep tr <-> ipps_ok period (length f - 1) f dep tr /\ f <> [].
Proof.
  split.
  - intros [H0 Hl Hm Ht Hs Hp]. assert (0 < length f) as Hlen by (by eapply lookup_lt_Some). split; [|by intros ->].
    set (pts := zip dep tr). assert (length pts = length dep) as Hpl by (unfold pts; rewrite zip_with_length; lia).
    assert (fst <$> pts = dep) as Hfst by (unfold pts; apply fst_zip; lia). assert (snd <$> pts = tr) as Hsnd by (unfold pts; apply snd_zip; lia).
    set (arc := fun i => take (default 0 (f !! S i) - default 0 (f !! i)) (drop (default 0 (f !! i)) pts)). set (arcs := arc <$> seq 0 (length f - 1)).
    assert (length arcs = length f - 1) as Hal by (unfold arcs; by rewrite fmap_length, seq_length).
    assert (forall i, i < length f - 1 -> arcs !! i = Some (arc i)) as Hat by (intros i Hi; unfold arcs; by rewrite list_lookup_fmap, lookup_seq_lt).
    assert (std_is_sorted f = true) as Hsf.
    { apply std_is_sorted_spec. intros i a b Ha Hb. specialize (Hm i a b Ha Hb). lia. }
    assert (forall i x, f !! i = Some x -> x <= length dep) as Hle.
    { intros i x Hx. pose proof (lookup_lt_Some _ _ _ Hx). apply (sorted_le f i (length f - 1)); [done|lia|done..]. }
    assert (forall i x, f !! i = Some x -> concat (take i arcs) = take x pts) as Hpre.
    { induction i as [|i IH]; intros y Hy; [rewrite H0 in Hy; by simplify_eq|].
      pose proof (lookup_lt_Some _ _ _ Hy) as Hi. destruct (lookup_lt_is_Some_2 f i) as [x Hx]; [lia|]. specialize (IH x Hx). specialize (Hm i x y Hx Hy).
      rewrite (concat_take_S arcs i (arc i)) by (apply Hat; lia). rewrite IH. unfold arc. rewrite Hx, Hy. cbn [default from_option].
      rewrite take_take_drop. f_equal. unfold id. lia. }
    assert (concat arcs = pts) as Hall.
    { rewrite <- (take_ge arcs (length f - 1)) by lia. rewrite (Hpre _ _ Hl). apply take_ge. lia. }
    exists arcs. split; [done|]. split.
    + apply Forall_lookup_2. intros i l Hi. pose proof (lookup_lt_Some _ _ _ Hi) as Hi'. rewrite Hat in Hi by lia. simplify_eq.
      destruct (lookup_lt_is_Some_2 f i) as [x Hx]; [lia|]. destruct (lookup_lt_is_Some_2 f (S i)) as [y Hy]; [lia|].
      unfold arc. rewrite Hx, Hy. cbn [default from_option]. unfold id. specialize (Hm i x y Hx Hy). pose proof (Hle _ _ Hy) as Hyd. split; [|split].
      * intros E%(f_equal length). rewrite take_length, drop_length in E. cbn in E. lia.
      * apply sorted_points. rewrite fmap_take, fmap_drop, Hfst. by apply (Hs i).
      * apply (Forall_fmap fst (fun x => x < period)). rewrite fmap_take, fmap_drop, Hfst. by apply Forall_take, Forall_drop.
    + split; [lia|]. split; [|by rewrite Hall]. intros i Hi. destruct (lookup_lt_is_Some_2 f i) as [x Hx]; [lia|]. rewrite Hx, (Hpre i x Hx), take_length. f_equal. specialize (Hle i x Hx). lia.
  - intros [(arcs & Hn & Hok & Hlen & Hf & -> & ->) Hne]. assert (length f - 1 = length arcs) as Hn' by lia.
    assert (forall i b e, f !! i = Some b -> f !! S i = Some e -> exists l, arcs !! i = Some l /\ b = length (concat (take i arcs)) /\ e = b + length l) as Harc.
    { intros i b e Hb He. pose proof (lookup_lt_Some _ _ _ He). destruct (lookup_lt_is_Some_2 arcs i) as [l Hl]; [lia|]. exists l. split; [done|]. rewrite Hf in Hb by lia. rewrite Hf in He by lia. rewrite (concat_take_S _ _ _ Hl), app_length in He. simplify_eq. done. }
    split.
    + rewrite Hf by lia. done.
    + rewrite Hf by lia. rewrite Hn', take_ge by lia. by rewrite fmap_length.
    + intros i b e Hb He. destruct (Harc i b e Hb He) as (l & Hl & -> & ->). destruct (proj1 (Forall_lookup _ _) Hok i l Hl) as (Hl0 & _). destruct l; [done|cbn; lia].
    + by rewrite !fmap_length.
    + intros i b e Hb He. destruct (Harc i b e Hb He) as (l & Hl & -> & ->). replace (length (concat (take i arcs)) + length l - length (concat (take i arcs))) with (length l) by lia.
      rewrite <- fmap_drop, <- fmap_take, (slice_of _ _ _ Hl). apply sorted_points. by destruct (proj1 (Forall_lookup _ _) Hok i l Hl) as (_ & ? & _).
    + apply Forall_fmap, Forall_concat. eapply Forall_impl; [exact Hok|]. by intros l (_ & _ & H).
Qed.
Lemma check_ipp_spec period f dep tr : f <> [] -> exists r, check_if_arc_ipp_are_valid period f dep tr = Some r /\ (r = Ret tt <-> ipps_ok period (length f - 1) f dep tr).
Proof.
  intros Hne. destruct (check_ipp_arrays period f dep tr Hne) as (r & E & H). exists r. split; [done|]. rewrite H, ipp_arrays_spec. by split; [intros [? ?]|].
Qed.
Lemma check_td_spec period fo head f dep tr : fo <> [] -> exists r, check_if_td_graph_is_valid period fo head f dep tr = Some r /\
  (r = Ret tt <-> csr (length fo - 1) fo head /\ ipps_ok period (length head) f dep tr).
Proof.
  intros Hne. unfold check_if_td_graph_is_valid. destruct (check_graph_spec fo head Hne) as (r & -> & H). destruct r as [[]|]; cbn [andthen].
  2:{ eexists. split; [done|]. split; [done|]. intros [Hc _]. by apply H in Hc. }
  rewrite throw_if_then. destruct f as [|x l].
  - eexists. split; [done|]. split; [done|]. by intros [_ (arcs & _ & _ & Hl & _)].
  - destruct (Nat.eqb_spec (length head) (length l)) as [El|El]; cbn [negb].
    + destruct (check_ipp_spec period (x :: l) dep tr) as (r & Er & Hr); [done|]. exists r. split; [done|]. rewrite Hr. cbn [length]. replace (S (length l) - 1) with (length head) by lia. split; [intros Hi; by split; [apply H|]|by intros [_ ?]].
    + eexists. split; [done|]. split; [done|]. intros [_ (arcs & Ha & _ & Hl & _)]. cbn in Hl. lia.
Qed.
Lemma check_queries_spec period n s st t rk : exists r, check_if_sst_queries_are_valid period n s st t rk = Some r /\ (r = Ret tt <-> queries_ok period n s st t rk).
Proof.
  unfold check_if_sst_queries_are_valid, queries_ok. rewrite !throw_if_then. pose proof (existsb_bound n s) as H1. pose proof (existsb_bound n t) as H2. pose proof (existsb_bound period st) as H3.
  destruct (existsb (fun x => n <=? x) s). { eexists. split; [done|]. split; [done|]. intros (H & _). by apply H1 in H. }
  destruct (existsb (fun x => n <=? x) t). { eexists. split; [done|]. split; [done|]. intros (_ & H & _). by apply H2 in H. }
  destruct (existsb (fun x => period <=? x) st). { eexists. split; [done|]. split; [done|]. intros (_ & _ & H & _). by apply H3 in H. }
  destruct (Nat.eqb_spec (length st) (length s)); cbn [negb]. 2:{ eexists. split; [done|]. split; [done|]. by intros (_ & _ & _ & ? & _). }
  destruct (Nat.eqb_spec (length t) (length s)); cbn [negb]. 2:{ eexists. split; [done|]. split; [done|]. by intros (_ & _ & _ & _ & ? & _). }
  unfold throw_if. destruct (Nat.eqb_spec (length rk) (length s)); cbn [negb]. 2:{ eexists. split; [done|]. split; [done|]. by intros (_ & _ & _ & _ & _ & ?). }
  eexists. split; [done|]. split; [intros _; split_and!; tauto|done].
Qed.
