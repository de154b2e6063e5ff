(** Proofs about EmulateModel. *)
From stdpp Require Import relations.
From Verif Require Import Base BitVectorModel IdMapperModel CchModel CchBuildModel CchParallelModel EmulateModel.
Ltac Zify.zify_post_hook ::= idtac.

(** ** Bits *)
Lemma land_bit x k : (N.land x (2 ^ k) =? 0)%N = negb (N.testbit x k).
Proof.
  destruct (N.testbit x k) eqn:E; cbn [negb].
  - apply N.eqb_neq. intros H. assert (N.testbit (N.land x (2 ^ k)) k = true) as Ht; [|rewrite H in Ht; by rewrite N.bits_0 in Ht]. by rewrite N.land_spec, E, N.pow2_bits_true.
  - apply N.eqb_eq. apply N.bits_inj. intros j. rewrite N.land_spec, N.bits_0. destruct (decide (j = k)) as [-> |Hj]; [by rewrite E|]. by rewrite N.pow2_bits_false, andb_false_r.
Qed.
Lemma next_bit k : (k < 64)%nat -> (N.shiftl (2 ^ N.of_nat k) 1 mod 2 ^ 64 = if decide (k = 63%nat) then 0 else 2 ^ N.of_nat (S k))%N.
Proof.
  intros Hk. rewrite N.shiftl_mul_pow2, <- N.pow_add_r. replace (N.of_nat k + 1)%N with (N.of_nat (S k)) by lia. destruct (decide (k = 63)) as [-> |Hne]; [done|].
  apply N.mod_small. apply N.pow_lt_mono_r; lia.
Qed.
Lemma bit_lt x k : (x < 2 ^ 64)%N -> N.testbit x k = true -> (k < 64)%N.
Proof.
  intros Hx Hk. destruct (N.lt_ge_cases k 64) as [|Hge]; [assumption|]. exfalso. destruct (N.eq_dec x 0) as [-> |Hne]; [by rewrite N.bits_0 in Hk|].
  rewrite N.bits_above_log2 in Hk; [discriminate|]. apply N.lt_le_trans with 64%N; [|exact Hge]. apply N.log2_lt_pow2; [|exact Hx]. clear - Hne. lia.
Qed.
Lemma popcount_loop_spec x j : forall k n, k + j = 64 -> 0 < j ->
  popcount_loop j x (2 ^ N.of_nat k) n = Some (n + length (filter (fun b => N.testbit x (N.of_nat b) = true) (seq k j))).
Proof.
  induction j as [|j IH]; intros k n Hk Hj; [lia|]. cbn [popcount_loop seq].
  destruct (N.eqb_spec (2 ^ N.of_nat k) 0) as [E|_]; [by apply N.pow_nonzero in E|]. rewrite land_bit, (next_bit k) by lia.
  assert (forall n', (if decide (k = 63) then popcount_loop j x 0 n' else popcount_loop j x (2 ^ N.of_nat (S k)) n') =
    Some (n' + length (filter (fun b => N.testbit x (N.of_nat b) = true) (seq (S k) j)))) as H.
  { intros n'. destruct (decide (k = 63)) as [-> |Hne].
    - replace j with 0 by lia. cbn. f_equal. lia.
    - apply IH; lia. }
  rewrite filter_cons. specialize (H (if negb (N.testbit x (N.of_nat k)) then n else S n)).
  assert (popcount_loop j x (if decide (k = 63%nat) then 0 else 2 ^ N.of_nat (S k))%N (if negb (N.testbit x (N.of_nat k)) then n else S n) =
    (if decide (k = 63) then popcount_loop j x 0 (if negb (N.testbit x (N.of_nat k)) then n else S n) else popcount_loop j x (2 ^ N.of_nat (S k)) (if negb (N.testbit x (N.of_nat k)) then n else S n))) as -> by (by destruct (decide _)).
  rewrite H. f_equal. destruct (N.testbit x (N.of_nat k)); cbn [negb]; [rewrite decide_True by done; cbn [length]; lia|by rewrite decide_False by done].
Qed.
Lemma ffs_loop_spec x j : forall k, k + j = 64 -> 0 < j ->
  ffs_loop j x (2 ^ N.of_nat k) (S k) = Some (match list_find (fun b => N.testbit x (N.of_nat b) = true) (seq k j) with Some (_, b) => S b | None => 0 end).
Proof.
  induction j as [|j IH]; intros k Hk Hj; [lia|]. cbn [ffs_loop seq list_find].
  destruct (N.eqb_spec (2 ^ N.of_nat k) 0) as [E|_]; [by apply N.pow_nonzero in E|]. rewrite land_bit, (next_bit k) by lia.
  destruct (N.testbit x (N.of_nat k)); cbn [negb]; [by rewrite decide_True by done|]. destruct (decide (false = true)); [done|]. destruct (decide (k = 63)) as [-> |Hne].
  - replace j with 0 by lia. done.
  - rewrite IH by lia. destruct (list_find _ (seq (S k) j)) as [[i b]|] eqn:E; cbn; rewrite ?E; done.
Qed.

(** ** Simulation *)
Definition plain (o : mop) : Prop := match o with MRelax _ _ _ _ => False | _ => True end.
Definition abs (cf : lconfig) : config := mkConfig (l_mem cf) (l_pend cf) (fst <$> l_ths cf) (l_stages cf).
(** What is true of a thread [i] *)
Definition at_call (m : metric) (t : thr) : Prop := exists d b mi tp r y z, t = mkThr (MRelax d b mi tp :: r) (P3 y z) /\ (y < z)%N /\ is_Some (rd m d tp).
Definition linv1 (m : metric) (tc : lthr) : Prop :=
  match snd tc with
  | COut | CExit => True
  | CIn => at_call m (fst tc)
  | CEqual => exists d b mi tp r y z, fst tc = mkThr (MRelax d b mi tp :: r) (P3 y z) /\ (y < z)%N /\ rd m d tp = Some z
  end.
(** Every thread that has loaded the value has found one. *)
Definition loaded (m : metric) (t : thr) : Prop := match prog t, ph t with MRelax d _ _ tp :: _, P3 _ _ => is_Some (rd m d tp) | _, _ => True end.
Definition one_kind (P : mop -> Prop) (cf : lconfig) : Prop := Forall (Forall P) (l_pend cf) /\ Forall (fun tc => Forall P (prog (fst tc))) (l_ths cf).
Record linv (cf : lconfig) : Prop := {
  li_lock : forall i t c, l_ths cf !! i = Some (t, c) -> (c <> COut <-> l_lock cf = Some i);
  li_owner : forall i, l_lock cf = Some i -> i < length (l_ths cf);
  li_thread : Forall (linv1 (l_mem cf)) (l_ths cf);
  li_loaded : Forall (fun tc => loaded (l_mem cf) (fst tc)) (l_ths cf);
  li_kind : one_kind plain cf \/ one_kind (fun o => ~ plain o) cf;
  li_stages : Forall (Forall (Forall (fun o => ~ plain o))) (l_stages cf) }.
Lemma rd_st m d a x m' d' a' : st m d a x = Some m' -> is_Some (rd m d' a') -> is_Some (rd m' d' a').
Proof.
  unfold st, rd. destruct d; (destruct (wr _ a x) as [f|] eqn:E; [|done]); rewrite bind_S; intros [= <-]; unfold wr in E; destruct (decide _); simplify_eq; destruct d'; cbn; rewrite <- !not_eq_None_Some, !lookup_ge_None, ?insert_length; done.
Qed.
Lemma thread_step_loaded m t m' t' d a : thread_step m t = Some (m', t') -> is_Some (rd m d a) -> is_Some (rd m' d a).
Proof.
  intros H Hr. unfold thread_step in H. destruct (prog t) as [|[d1 a1 x|d1 a1 x|d1 b mi tp] r]; [done|..]; destruct (ph t); try done.
  - destruct (st m d1 a1 x) eqn:E; [|done]. rewrite bind_S in H. simplify_eq. by eapply rd_st.
  - destruct (rd m d1 a1); [|done]. rewrite bind_S in H. by simplify_eq.
  - destruct (N.ltb x v); [destruct (st m d1 a1 x) eqn:E; [|done]; rewrite bind_S in H; simplify_eq; by eapply rd_st|]. rewrite bind_S in H. by simplify_eq.
  - destruct (rd m _ b); [|done]. rewrite bind_S in H. by simplify_eq.
  - destruct (rd m _ mi); [|done]. rewrite bind_S in H. by simplify_eq.
  - destruct (rd m _ tp); [|done]. rewrite bind_S in H. by simplify_eq.
  - destruct (N.ltb y z); [|by simplify_eq]. destruct (rd m d1 tp) as [cur|]; [|done]. rewrite bind_S in H. destruct (N.eqb cur z); [destruct (st m d1 tp y) eqn:E; [|done]; rewrite bind_S in H; simplify_eq; by eapply rd_st|by simplify_eq].
Qed.
Lemma thread_step_facts m t m' t' : thread_step m t = Some (m', t') ->
  loaded m' t' /\ (forall P, Forall P (prog t) -> Forall P (prog t')) /\ (calls t = false -> Forall (fun o => ~ plain o) (prog t) -> m' = m).
Proof.
  intros H. unfold thread_step, calls in *. destruct (prog t) as [|[d1 a1 x|d1 a1 x|d1 b mi tp] r] eqn:Ep; [done|..].
  - destruct (ph t); try done. destruct (st m d1 a1 x) eqn:E; [|done]. rewrite bind_S in H. simplify_eq. repeat split.
    + unfold loaded. cbn. by destruct r as [|[]].
    + intros P HP. by inversion HP.
    + intros _ HP. inversion HP as [|? ? Hn]. by destruct Hn.
  - destruct (ph t); try done.
    + destruct (rd m d1 a1); [|done]. rewrite bind_S in H. simplify_eq. repeat split; done.
    + assert (t' = mkThr r P0) as ->.
      { destruct (N.ltb x v); [destruct (st m d1 a1 x) eqn:E; [|done]|]; rewrite !bind_S in H; by simplify_eq. }
      repeat split.
      * unfold loaded. cbn. by destruct r as [|[]].
      * intros P HP. by inversion HP.
      * intros _ HP. inversion HP as [|? ? Hn]. by destruct Hn.
  - destruct (ph t); try done.
    + destruct (rd m _ b); [|done]. rewrite bind_S in H. simplify_eq. repeat split; done.
    + destruct (rd m _ mi); [|done]. rewrite bind_S in H. simplify_eq. repeat split; done.
    + destruct (rd m d1 tp) eqn:E; [|done]. rewrite bind_S in H. simplify_eq. split; [|done]. unfold loaded. cbn. by rewrite E.
    + destruct (N.ltb y z).
      * destruct (rd m d1 tp) as [cur|]; [|done]. rewrite bind_S in H. destruct (N.eqb cur z).
        -- destruct (st m d1 tp y) eqn:E; [|done]. rewrite bind_S in H. simplify_eq. split; [|split; [|done]].
           ++ unfold loaded. cbn. by destruct r as [|[]].
           ++ intros P HP. by inversion HP.
        -- simplify_eq. repeat split; done.
      * simplify_eq. split; [|split; [|done]].
        ++ unfold loaded. cbn. by destruct r as [|[]].
        ++ intros P HP. by inversion HP.
Qed.
Lemma loaded_mono m m' t : (forall d a, is_Some (rd m d a) -> is_Some (rd m' d a)) -> loaded m t -> loaded m' t.
Proof. intros H. unfold loaded. destruct (prog t) as [|[] ?]; try done. destruct (ph t); try done. apply H. Qed.
Lemma at_call_of m t : calls t = true -> loaded m t -> at_call m t.
Proof.
  unfold calls, loaded, at_call. destruct t as [p h]. cbn. destruct p as [|[] r]; try done. destruct h; try done. intros Hy Hr. apply N.ltb_lt in Hy. eauto 10.
Qed.
Lemma at_call_mono m m' t : (forall d a, is_Some (rd m d a) -> is_Some (rd m' d a)) -> at_call m t -> at_call m' t.
Proof. intros H (d & b & mi & tp & r & y & z & E & Hy & Hr). exists d, b, mi, tp, r, y, z. auto. Qed.
Lemma linv1_mono m m' tc : (forall d a, is_Some (rd m d a) -> is_Some (rd m' d a)) -> (snd tc = CEqual -> m' = m) -> linv1 m tc -> linv1 m' tc.
Proof.
  intros H He. unfold linv1. destruct (snd tc); try done; [by apply at_call_mono|]. by rewrite (He eq_refl).
Qed.
(** ** Steps *)
Definition rank (tc : lthr) : nat := match snd tc with CExit => 4 | COut => 3 | CIn => 2 | CEqual => 1 end.
Definition ranks (cf : lconfig) : nat := sum_list (rank <$> l_ths cf).
Lemma sum_insert (l : list nat) i x y : l !! i = Some x -> sum_list (<[i := y]> l) + x = sum_list l + y.
Proof.
  revert i. induction l as [|a l IH]; intros i Hi; [done|]. destruct i as [|i]; [injection Hi as ->; cbn; unfold id; lia|]. specialize (IH i Hi). change (<[S i := y]> (a :: l)) with (a :: <[i := y]> l). cbn [sum_list_with]. lia.
Qed.
Lemma ranks_insert (l : list lthr) i tc tc' : l !! i = Some tc -> rank tc' < rank tc -> sum_list (rank <$> <[i := tc']> l) < sum_list (rank <$> l).
Proof.
  intros Hi Hr. rewrite list_fmap_insert. pose proof (sum_insert (rank <$> l) i (rank tc) (rank tc')) as H. rewrite list_lookup_fmap, Hi in H. specialize (H eq_refl). lia.
Qed.
(** Replacing one thread and the memory *)
Lemma linv_update cf i tc tc' lock' m' :
  linv cf -> l_ths cf !! i = Some tc ->
  (forall j t c, j <> i -> l_ths cf !! j = Some (t, c) -> (c <> COut <-> lock' = Some j)) -> (snd tc' <> COut <-> lock' = Some i) -> (forall j, lock' = Some j -> j < length (l_ths cf)) ->
  (forall d a, is_Some (rd (l_mem cf) d a) -> is_Some (rd m' d a)) ->
  (forall j t c, j <> i -> l_ths cf !! j = Some (t, c) -> c = CEqual -> m' = l_mem cf) ->
  linv1 m' tc' -> loaded m' (fst tc') -> (forall P, Forall P (prog (fst tc)) -> Forall P (prog (fst tc'))) ->
  linv (mkLconfig lock' m' (l_pend cf) (<[i := tc']> (l_ths cf)) (l_stages cf)).
Proof.
  intros HI Hi Hl Hli Hlo Hm He H1 H2 HP. pose proof (lookup_lt_Some _ _ _ Hi) as Hlen. constructor; cbn.
  - intros j t c Hj. destruct (decide (j = i)) as [-> |Hne].
    + rewrite list_lookup_insert in Hj by done. by simplify_eq.
    + rewrite list_lookup_insert_ne in Hj by done. by eapply Hl.
  - intros j Hj. rewrite insert_length. by apply Hlo.
  - apply Forall_lookup. intros j [t c] Hj. destruct (decide (j = i)) as [-> |Hne].
    + rewrite list_lookup_insert in Hj by done. by simplify_eq.
    + rewrite list_lookup_insert_ne in Hj by done. eapply linv1_mono; [exact Hm| |by eapply Forall_lookup_1; [apply HI|exact Hj]]. by eapply He.
  - apply Forall_lookup. intros j [t c] Hj. destruct (decide (j = i)) as [-> |Hne].
    + rewrite list_lookup_insert in Hj by done. by simplify_eq.
    + rewrite list_lookup_insert_ne in Hj by done. eapply loaded_mono; [exact Hm|]. exact (Forall_lookup_1 _ _ _ _ (li_loaded _ HI) Hj).
  - assert (forall P, one_kind P cf -> one_kind P (mkLconfig lock' m' (l_pend cf) (<[i:=tc']> (l_ths cf)) (l_stages cf))) as Hk.
    { intros P [K1 K2]. split; cbn; [done|]. apply Forall_insert; [done|]. apply HP. exact (Forall_lookup_1 _ _ _ _ K2 Hi). }
    destruct (li_kind _ HI); auto.
  - apply HI.
Qed.
Lemma only_one cf i t c : linv cf -> l_ths cf !! i = Some (t, c) -> c <> COut -> forall j t' c', j <> i -> l_ths cf !! j = Some (t', c') -> c' = COut.
Proof.
  intros HI Hi Hc j t' c' Hj H. destruct c'; [done|exfalso..]; assert (l_lock cf = Some j) as E by (by eapply (li_lock _ HI)); rewrite ((proj1 (li_lock _ HI _ _ _ Hi)) Hc) in E; congruence.
Qed.
Lemma lookup_fst (l : list lthr) i tc : l !! i = Some tc -> ((fst <$> l : list thr) !! i) = Some (fst tc).
Proof. intros H. etransitivity; [apply (list_lookup_fmap fst l i)|]. exact (f_equal (fmap fst) H). Qed.
Lemma locked_step_sim cf i tc lock' m' tc' : linv cf -> l_ths cf !! i = Some tc -> locked_step i (l_lock cf) (l_mem cf) tc = Some (lock', m', tc') ->
  let cf' := mkLconfig lock' m' (l_pend cf) (<[i := tc']> (l_ths cf)) (l_stages cf) in
  linv cf' /\ ((abs cf' = abs cf /\ ranks cf' < ranks cf) \/ step (abs cf) (abs cf')).
Proof.
  intros HI Hi H. destruct tc as [t c]. pose proof (lookup_lt_Some _ _ _ Hi) as Hlen.
  pose proof (Forall_lookup_1 _ _ _ _ (li_thread _ HI) Hi) as Ht. pose proof (Forall_lookup_1 _ _ _ _ (li_loaded _ HI) Hi) as Hld. cbn [fst] in Hld.
  assert (forall tc' m' lock', fst tc' = t -> m' = l_mem cf -> rank tc' < rank (t, c) ->
    abs (mkLconfig lock' m' (l_pend cf) (<[i := tc']> (l_ths cf)) (l_stages cf)) = abs cf /\ ranks (mkLconfig lock' m' (l_pend cf) (<[i := tc']> (l_ths cf)) (l_stages cf)) < ranks cf) as Hst.
  { intros tc1 m1 lock1 E1 -> Hr. split.
    - unfold abs. cbn. f_equal. rewrite list_fmap_insert, E1. apply list_insert_id. by apply lookup_fst in Hi.
    - unfold ranks. cbn [l_ths]. by eapply ranks_insert. }
  assert (forall tc' m' lock', thread_step (l_mem cf) t = Some (m', fst tc') ->
    step (abs cf) (abs (mkLconfig lock' m' (l_pend cf) (<[i := tc']> (l_ths cf)) (l_stages cf)))) as Hab.
  { intros tc1 m1 lock1 E1. unfold abs at 2. cbn. rewrite list_fmap_insert. apply (step_thread i t m1 (fst tc1) (abs cf)); [|done]. by apply lookup_fst in Hi. }
  destruct c; cbn in H.
  - destruct (calls t) eqn:Ec.
    + destruct (l_lock cf) eqn:El; [done|]. simplify_eq. split; [|left; apply Hst; cbn; auto].
      eapply (linv_update _ _ _ _ _ _ HI Hi); try done.
      * intros j t' c' Hj Hl. pose proof (li_lock _ HI _ _ _ Hl) as HL. rewrite El in HL. split; [intros Hc; by apply HL in Hc|congruence].
      * intros j [= <-]. done.
      * cbn. by apply at_call_of.
    + destruct (thread_step (l_mem cf) t) as [[m1 t1]|] eqn:E; [|done]. rewrite bind_S in H. injection H as <- <- <-.
      destruct (thread_step_facts _ _ _ _ E) as (F1 & F2 & F3).
      split; [|right; by apply Hab]. eapply (linv_update _ _ _ _ _ _ HI Hi); try done.
      * intros j t' c' Hj Hl. apply (li_lock _ HI _ _ _ Hl).
      * cbn. apply (li_lock _ HI _ _ _ Hi).
      * apply HI.
      * intros d a. by eapply thread_step_loaded.
      * intros j t' c' Hj Hl ->. destruct (li_kind _ HI) as [[_ K]|[_ K]].
        -- exfalso. pose proof (Forall_lookup_1 _ _ _ _ K Hl) as K1. pose proof (Forall_lookup_1 _ _ _ _ (li_thread _ HI) Hl) as K2. cbn in K1, K2.
           destruct K2 as (d & b & mi & tp & r & y & z & -> & _). cbn in K1. by inversion K1.
        -- apply F3; [done|]. exact (Forall_lookup_1 _ _ _ _ K Hi).
  - pose proof (only_one _ _ _ _ HI Hi ltac:(done)) as Honly. pose proof (proj1 (li_lock _ HI _ _ _ Hi) ltac:(done)) as El.
    cbn in Ht. destruct Ht as (d & b & mi & tp & r & y & z & -> & Hy & [cur Hr]). cbn in H. rewrite Hr, bind_S in H.
    assert (forall j t' c', j <> i -> l_ths cf !! j = Some (t', c') -> (c' <> COut <-> l_lock cf = Some j)) as Hothers by (intros j t' c' _ Hl; apply (li_lock _ HI _ _ _ Hl)).
    destruct (N.eqb_spec cur z) as [E|Hne]; injection H as <- <- <-; [subst cur|].
    + split; [|left; apply Hst; cbn; auto]. eapply (linv_update _ _ _ _ _ _ HI Hi); try done; [apply HI|]. cbn. eauto 12.
    + split; [|right; apply Hab]; [eapply (linv_update _ _ _ _ _ _ HI Hi); try done; apply HI|].
      unfold thread_step. cbn. rewrite (proj2 (N.ltb_lt _ _) Hy), Hr, bind_S, (proj2 (N.eqb_neq _ _) Hne). done.
  - pose proof (only_one _ _ _ _ HI Hi ltac:(done)) as Honly. pose proof (proj1 (li_lock _ HI _ _ _ Hi) ltac:(done)) as El.
    cbn in Ht. destruct Ht as (d & b & mi & tp & r & y & z & -> & Hy & Hr). cbn in H. destruct (st (l_mem cf) d tp y) as [m1|] eqn:Es; [|done]. rewrite bind_S in H. injection H as <- <- <-.
    split; [|right; apply Hab].
    + eapply (linv_update _ _ _ _ _ _ HI Hi); try done.
      * intros j t' c' _ Hl. apply (li_lock _ HI _ _ _ Hl).
      * apply HI.
      * intros d' a. by eapply rd_st.
      * intros j t' c' Hj Hl ->. by specialize (Honly _ _ _ Hj Hl).
      * unfold loaded. cbn. by destruct r as [|[]].
      * cbn. intros P HP. by inversion HP.
    + unfold thread_step. cbn. rewrite (proj2 (N.ltb_lt _ _) Hy), Hr, bind_S, (proj2 (N.eqb_eq _ _) eq_refl), Es, bind_S. done.
  - pose proof (only_one _ _ _ _ HI Hi ltac:(done)) as Honly. simplify_eq. split; [|left; apply Hst; cbn; auto]. eapply (linv_update _ _ _ _ _ _ HI Hi); try done.
    intros j t' c' Hj Hl. pose proof (Honly _ _ _ Hj Hl) as ->. split; done.
Qed.
Lemma lstep_sim cf cf' : linv cf -> lstep cf cf' -> linv cf' /\ ((abs cf' = abs cf /\ ranks cf' < ranks cf) \/ step (abs cf) (abs cf')).
Proof.
  intros HI H. inversion H as [i t lock' m' t' cf1 H1 H2|i t before chunk after cf1 H1 H2 H3 H4|p rest cf1 H1 H2 H3]; subst.
  - by eapply locked_step_sim.
  - destruct t as [t c]. destruct H2 as [Hid Hc]. cbn in Hid, Hc. subst c. pose proof (lookup_lt_Some _ _ _ H1) as Hlen. split.
    + destruct HI as [I1 I2 I3 I4 I5 I6]. constructor; cbn.
      * intros j t' c' Hj. destruct (decide (j = i)) as [-> |Hne]; [rewrite list_lookup_insert in Hj by done; simplify_eq; by apply (I1 i t)|]. rewrite list_lookup_insert_ne in Hj by done. by eapply I1.
      * intros j Hj. rewrite insert_length. auto.
      * apply Forall_insert; done.
      * apply Forall_insert; [done|]. unfold loaded. cbn. by destruct (concat chunk) as [|[]].
      * assert (forall P, one_kind P cf -> one_kind P (mkLconfig (l_lock cf) (l_mem cf) (before ++ after) (<[i := (mkThr (concat chunk) P0, COut)]> (l_ths cf)) (l_stages cf))) as Hk.
        { intros P [K1 K2]. rewrite H3, !Forall_app in K1. destruct K1 as (K3 & K4 & K5). split; cbn; [by apply Forall_app|]. apply Forall_insert; [done|]. cbn. by apply Forall_concat. }
        destruct I5; auto.
      * done.
    + right. unfold abs at 2. cbn. rewrite list_fmap_insert. cbn. apply (step_take i t before chunk after (abs cf)); [|done|done|done]. by apply lookup_fst in H1.
  - split.
    + destruct HI as [I1 I2 I3 I4 I5 I6]. rewrite H3 in I6. inversion I6; subst. constructor; cbn; try done.
      right. split; cbn; [done|]. eapply Forall_impl; [exact H2|]. intros [t c] [[Hp _] _]. cbn in *. by rewrite Hp.
    + right. apply (step_barrier p rest (abs cf)); cbn; [done| |done]. apply Forall_fmap. eapply Forall_impl; [exact H2|]. by intros [t c] [? _].
Qed.
Lemma lstep_progress cf : linv cf -> (exists cf', step (abs cf) cf') \/ l_lock cf <> None -> exists cf', lstep cf cf'.
Proof.
  intros HI H. destruct (l_lock cf) as [i|] eqn:El.
  - pose proof (li_owner _ HI _ El) as Hi. apply lookup_lt_is_Some in Hi as [[t c] Hi]. pose proof (proj2 (li_lock _ HI _ _ _ Hi) El) as Hc.
    pose proof (Forall_lookup_1 _ _ _ _ (li_thread _ HI) Hi) as Ht. cbn in Ht.
    assert (exists r, locked_step i (l_lock cf) (l_mem cf) (t, c) = Some r) as [[[lock' m'] tc'] Hr]; [|eexists; by eapply lstep_thread].
    destruct c; [done| | |cbn; eauto]; cbn.
    + cbn in Ht. destruct Ht as (d & b & mi & tp & r & y & z & -> & Hy & [cur Hr]). cbn. rewrite Hr, bind_S. destruct (N.eqb cur z); eauto.
    + cbn in Ht. destruct Ht as (d & b & mi & tp & r & y & z & -> & Hy & Hr). cbn.
      assert (exists m', st (l_mem cf) d tp y = Some m') as [m' ->]; [|rewrite bind_S; eauto].
      unfold st, rd in *. apply lookup_lt_Some in Hr. destruct d; rewrite wr_Some by done; rewrite bind_S; eauto.
  - destruct H as [[cf' H]|]; [|done].
    assert (forall i t, ths (abs cf) !! i = Some t -> l_ths cf !! i = Some (t, COut)) as Hlk.
    { intros i t Hi. apply (list_lookup_fmap_inv fst (l_ths cf)) in Hi as ([t' c] & -> & Hi). etransitivity; [exact Hi|]. do 2 f_equal.
      destruct c; [done|exfalso..]; assert (l_lock cf = Some i) as E by (by eapply (li_lock _ HI)); congruence. }
    inversion H as [i t m' t' cf1 H1 H2|i t before chunk after cf1 H1 H2 H3 H4|p rest cf1 H1 H2 H3]; subst.
    + apply Hlk in H1. destruct (calls t) eqn:Ec.
      * eexists. eapply lstep_thread; [exact H1|]. cbn. by rewrite Ec, El.
      * eexists. eapply lstep_thread; [exact H1|]. cbn. rewrite Ec. cbn in H2. by rewrite H2.
    + eexists. eapply lstep_take; [by apply Hlk|by split|exact H3|done].
    + eexists. eapply lstep_barrier; [done| |exact H3]. apply Forall_lookup. intros i [t c] Hi.
      assert (ths (abs cf) !! i = Some t) as Ht by (by apply lookup_fst in Hi).
      pose proof (eq_trans (eq_sym Hi) (Hlk _ _ Ht)) as E. injection E as ->. split; [|done]. exact (Forall_lookup_1 _ _ _ _ H2 Ht).
Qed.
Lemma lfinal_abs cf : lfinal cf -> final (abs cf).
Proof. intros (H1 & H2 & H3). repeat split; cbn; try done. apply Forall_fmap. eapply Forall_impl; [exact H2|]. by intros [t c] [? _]. Qed.
Lemma final_lfinal cf : linv cf -> l_lock cf = None -> final (abs cf) -> lfinal cf.
Proof.
  intros HI El (H1 & H2 & H3). repeat split; [done| |done]. apply Forall_lookup. intros i [t c] Hi. cbn in H2. rewrite Forall_fmap in H2. split; [exact (Forall_lookup_1 _ _ _ _ H2 Hi)|].
  destruct c; [done|exfalso..]; assert (l_lock cf = Some i) as E by (by eapply (li_lock _ HI)); congruence.
Qed.
Lemma lfinal_stuck cf cf' : lfinal cf -> ~ lstep cf cf'.
Proof.
  intros (H1 & H2 & H3) H. inversion H as [i t lock' m' t' cf1 E1 E2|i t before chunk after cf1 E1 E2 E3 E4|p rest cf1 E1 E2 E3]; subst.
  - pose proof (Forall_lookup_1 _ _ _ _ H2 E1) as [Hid Hc]. destruct t as [t c]. cbn in Hid, Hc. subst c. destruct Hid as [Hp Hh]. cbn in E2. unfold calls, thread_step in E2. by rewrite Hp in E2.
  - rewrite H1 in E3. destruct before, chunk; cbn in *; congruence.
  - congruence.
Qed.
Lemma lstep_acc cf : linv cf -> Acc (fun b a => step a b) (abs cf) -> Acc (fun b a => lstep a b) cf.
Proof.
  intros HI HA. remember (abs cf) as a eqn:Ea. revert cf HI Ea. induction HA as [a _ IH]. intros cf HI ->.
  remember (ranks cf) as n eqn:En. revert cf HI IH En. induction (lt_wf n) as [n _ IHn]. intros cf HI IH ->. constructor. intros cf' Hs.
  destruct (lstep_sim _ _ HI Hs) as [HI' [[E Hr]|Hst]].
  - apply (IHn (ranks cf')); [done|done| |done]. by rewrite E.
  - by eapply IH.
Qed.
(** ** The beginning *)
Lemma mapM_Forall {A B} (f : A -> option B) (P : B -> Prop) l k : (forall x y, f x = Some y -> P y) -> mapM f l = Some k -> Forall P k.
Proof. intros Hf H. apply mapM_Some in H. induction H; constructor; eauto. Qed.
Lemma extra_plain d first extra i w a l : extra_ops d first extra i w a = Some l -> Forall plain l.
Proof.
  unfold extra_ops. intros H. destruct (first !! i); [|done]. rewrite bind_S in H. destruct (first !! S i); [|done]. rewrite bind_S in H. eapply mapM_Forall; [|exact H].
  intros j o Ho. cbn in Ho. destruct (extra !! j) as [e|]; [|done]. rewrite bind_S in Ho. destruct (w !! e); [|done]. rewrite bind_S in Ho. by simplify_eq.
Qed.
Lemma extract_plain c w a l : extract_ops c w a = Some l -> Forall plain l.
Proof.
  unfold extract_ops. intros H. destruct (has_input c !! a) as [b|]; [|done]. rewrite bind_S in H. destruct b; cbn [negb] in H; [|simplify_eq; by repeat constructor].
  destruct (local_id (has_input c) a) as [k|]; [|done]. rewrite bind_S in H. destruct (first_weight (fwd_input c) k w); [|done]. rewrite bind_S in H. destruct (first_weight (bwd_input c) k w); [|done]. rewrite bind_S in H.
  destruct (has_extra c !! a) as [[|]|]; [| |done]; rewrite bind_S in H; [|simplify_eq; by repeat constructor].
  destruct (local_id _ a); [|done]. rewrite bind_S in H. destruct (extra_ops true _ _ _ _ _) eqn:E1; [|done]. rewrite bind_S in H. destruct (extra_ops false _ _ _ _ _) eqn:E2; [|done]. rewrite bind_S in H.
  simplify_eq. constructor; [done|]. constructor; [done|]. apply Forall_app. eauto using extra_plain.
Qed.
Lemma merge_arcs_keeps {St} (I : St -> Prop) h1 h2 f fuel : (forall x i j s r, I s -> f x i j s = Some r -> I (fst r)) ->
  forall i ie j je s r, I s -> merge_arcs h1 h2 f fuel i ie j je s = Some r -> I (fst r).
Proof.
  intros Hf. induction fuel as [|fuel IH]; intros i ie j je s r Hs H; cbn [merge_arcs] in H.
  - destruct (decide (i = ie)); [by simplify_eq|]. destruct (decide (j = je)); [by simplify_eq|done].
  - destruct (decide (i = ie)); [by simplify_eq|]. destruct (decide (j = je)); [by simplify_eq|]. destruct (h1 !! i) as [x|]; [|done]. rewrite bind_S in H. destruct (h2 !! j) as [y|]; [|done]. rewrite bind_S in H.
    destruct (decide (x < y)); [by eapply IH|]. destruct (decide (y < x)); [by eapply IH|]. destruct (f x i j s) as [[s1 go]|] eqn:E; [|done]. rewrite bind_S in H. apply Hf in E; [|done].
    destruct go; [by eapply IH|]. by simplify_eq.
Qed.
Lemma relax_kind c a l : relax_ops c a = Some l -> Forall (fun o => ~ plain o) l.
Proof.
  unfold relax_ops. intros H. destruct (forall_upper_triangles_of_arc _ _ _ _) as [[ops go]|] eqn:E; [|done]. rewrite bind_S in H. simplify_eq. unfold forall_upper_triangles_of_arc, forall_upper_triangles in E.
  destruct (up_tail c !! a) as [n|]; [|done]. rewrite bind_S in E. destruct (up_head c !! a) as [n0|]; [|done]. rewrite bind_S in E.
  destruct (up_first_out c !! S n); [|done]. rewrite bind_S in E. destruct (up_first_out c !! n0); [|done]. rewrite bind_S in E. destruct (up_first_out c !! S n0); [|done]. rewrite bind_S in E.
  apply (merge_arcs_keeps (Forall (fun o => ~ plain o))) in E; [done| |constructor].
  intros x i j s r Hs [= <-]. cbn. apply Forall_app. split; [done|]. repeat constructor; cbn; auto.
Qed.
Lemma lstart_inv c lv w threads m cf : start c lv w threads m = Some cf -> exists lcf, lstart c lv w threads m = Some lcf /\ abs lcf = cf /\ linv lcf.
Proof.
  intros H. unfold lstart. rewrite H, bind_S. eexists. split; [reflexivity|]. split.
  - destruct cf. unfold abs. cbn. f_equal. rewrite <- list_fmap_compose. by apply list_fmap_id.
  - unfold start in H. destruct (mapM (extract_ops c w) _) as [first|] eqn:E1; [|done]. rewrite bind_S in H. destruct (mapM (level_jobs c lv) _) as [rest|] eqn:E2; [|done]. rewrite bind_S in H. simplify_eq.
    constructor; cbn; try done.
    + intros i t k Hi. rewrite list_lookup_fmap in Hi. apply fmap_Some in Hi as (? & _ & ?). by simplify_eq.
    + apply Forall_fmap, Forall_forall. done.
    + apply Forall_fmap, Forall_forall. intros t [-> _]%elem_of_replicate. done.
    + left. split; cbn; [eapply mapM_Forall; [|exact E1]; apply extract_plain|]. apply Forall_fmap, Forall_forall. intros t [-> _]%elem_of_replicate. constructor.
    + eapply mapM_Forall; [|exact E2]. intros l J HJ. unfold level_jobs in HJ. destruct (_ !! l); [|done]. rewrite bind_S in HJ. destruct (_ !! S l); [|done]. rewrite bind_S in HJ.
      eapply mapM_Forall; [|exact HJ]. intros i ops Ho. cbn in Ho. destruct (_ !! i); [|done]. rewrite bind_S in Ho. by eapply relax_kind.
Qed.
Lemma lsteps_sim a b : linv a -> rtc lstep a b -> linv b /\ rtc step (abs a) (abs b).
Proof.
  intros HI H. induction H as [|x y z Hs _ IH]; [split; [done|constructor]|]. destruct (lstep_sim _ _ HI Hs) as [HI' [[E _]|Hst]].
  - rewrite <- E. by apply IH.
  - destruct (IH HI') as [H1 H2]. split; [done|]. by eapply rtc_l.
Qed.
