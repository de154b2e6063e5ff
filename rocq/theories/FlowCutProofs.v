(** BlockingFlow: the flow after any number of advances, and the cuts of a finished one. *)
From Verif Require Import Base UtilSpec GraphSpec FlowModel FlowSpec FlowArray FlowNetProofs FlowBfsProofs FlowAugProofs FlowSearchProofs.

Ltac Zify.zify_post_hook ::= idtac.

Section Cut.
  Context (g : fragment) (Hok : fragment_ok g) (source target : list bool) (Hst : flow_start g source target).
  Notation n := (fr_nodes g).
  Notation m := (fr_arcs g).

  Definition fo (sat : list bool) (a : nat) : bool := negb (node_in sat a).
  Definition fi (sat : list bool) (a : nat) : bool := negb (node_in sat (default 0 (fr_back g !! a))).
  Lemma free_out_fo sat a : length sat = m -> a < m -> free_out sat a = Some (fo sat a).
  Proof. intros Hl Ha. unfold free_out, fo. by rewrite (lk_bool sat m a Hl Ha). Qed.
  Lemma free_in_fi sat a : length sat = m -> a < m -> free_in g sat a = Some (fi sat a).
  Proof.
    intros Hl Ha. unfold free_in, fi. destruct (frag_back g Hok a Ha) as (b & Hb & Hbm & _). rewrite Hb, bind_S. cbn [default]. by rewrite (lk_bool sat m b Hl Hbm).
  Qed.
  Lemma compl_fi sat P : closed g (fo sat) P -> closed g (fi sat) (fun x => ~ P x).
  Proof.
    intros H a x y Hx Hy Hf Hn HP. apply Hn. destruct (frag_tail_lt g Hok _ _ Hx) as [Ham _]. destruct (frag_back g Hok a Ham) as (b & Hb & _ & Hba).
    destruct (fo_swap _ Hok _ _ Hb) as [H1 H2]. apply (H b y x); [by rewrite H1|by rewrite H2| |done].
    unfold fi in Hf. by rewrite Hb in Hf.
  Qed.
  Lemma compl_fo sat P : closed g (fi sat) P -> closed g (fo sat) (fun x => ~ P x).
  Proof.
    intros H a x y Hx Hy Hf Hn HP. apply Hn. destruct (frag_tail_lt g Hok _ _ Hx) as [Ham _]. destruct (frag_back g Hok a Ham) as (b & Hb & _ & Hba).
    destruct (fo_swap _ Hok _ _ Hb) as [H1 H2]. apply (H b y x); [by rewrite H1|by rewrite H2| |done].
    unfold fi. by rewrite Hba.
  Qed.

  Record fl_ok (f : flow) : Prop := {
    fl_source : f_source f = source;
    fl_target : f_target f = target;
    fl_flow : flow_inv g source target (f_intensity f) (f_sat f) 0;
    fl_blocked : length (f_blocked f) = m;
    fl_finished : f_finished f = true -> exists R : nat -> Prop, closed g (fo (f_sat f)) R /\ (forall x, node_in source x = true -> R x) /\ (forall x, node_in target x = true -> ~ R x) }.

  Lemma make_flow_ok garbage : length garbage = m -> fl_ok (make_flow g source target garbage).
  Proof.
    intros Hg. split; cbn [make_flow f_source f_target f_intensity f_sat f_blocked f_finished]; try done. split.
    - apply replicate_length.
    - intros a b _. unfold node_in. destruct (replicate m false !! a) eqn:E; [|done]. by apply lookup_replicate in E as [-> _].
    - intros S _. by rewrite net_zero.
  Qed.

  (** The nodes from which a target can be reached over free arcs to ever higher levels. *)
  Inductive good (sat : list bool) (lev : nat -> option nat) : nat -> Prop :=
  | good_target a x y l : fr_tail g !! a = Some x -> fr_head g !! a = Some y -> lev x = Some l -> node_in sat a = false -> node_in target y = true -> good sat lev x
  | good_step a x y l : fr_tail g !! a = Some x -> fr_head g !! a = Some y -> lev x = Some l -> node_in sat a = false -> lev y = Some (S l) -> good sat lev y -> good sat lev x.

  (** :408-415 *)
  Lemma advance_spec asserts f : fl_ok f ->
    exists f', advance g asserts f = Some f' /\ fl_ok f' /\ (f_finished f' = true \/ f_finished f' = false /\ f_intensity f < f_intensity f') /\ (f_finished f = true -> f' = f).
  Proof.
    intros H. destruct Hst as (Hs & Ht & Hd). unfold advance. destruct (f_finished f) eqn:Efin.
    { exists f. split; [done|]. split; [done|]. split; [by left|done]. }
    rewrite (fl_source _ H), (fl_target _ H). pose proof (fl_flow _ H) as [Hl He Hn].
    destruct (compute_blocking_flow_spec g Hok source target (f_sat f) Hs Ht Hd Hl (f_blocked f) (fl_blocked _ H)) as (found & blocked & lev & Hc & L).
    rewrite Hc, bind_S. destruct found.
    - set (W := fun a => exists x y l, fr_tail g !! a = Some x /\ fr_head g !! a = Some y /\ lev x = Some l /\ node_in (f_sat f) a = false /\
        (node_in target y = true \/ lev y = Some (S l) /\ good (f_sat f) lev y)).
      assert (forall y, good (f_sat f) lev y -> exists b, W b /\ fr_tail g !! b = Some y) as Hgood.
      { intros y Hy. destruct Hy as [a x y l H1 H2 H3 H4 H5|a x y l H1 H2 H3 H4 H5 H6]; exists a; (split; [|done]); exists x, y, l; auto 10. }
      destruct (augment_all_spec g Hok source target Hs Ht Hd lev (l_lt _ _ _ _ _ _ _ L) (l_source _ _ _ _ _ _ _ L) (l_target _ _ _ _ _ _ _ L) (f_intensity f) W) with (asserts := asserts) (sat := f_sat f) (blocked := blocked)
        as (sat & blocked' & paths & Ha & Hfl & Hbl & Hpos).
      + intros a (x & y & l & H1 & H2 & H3 & H4 & [H5|[H5 H6]]); exists x, y; (split; [done|]); (split; [done|]); [by left|]. right. by apply Hgood.
      + apply (fl_flow _ H).
      + apply (l_len _ _ _ _ _ _ _ L).
      + intros a x y l Hx Hy Hlx Hb. destruct (l_arc _ _ _ _ _ _ _ L a x y Hx Hy ltac:(by exists l)) as (l' & Hl' & Hcase).
        rewrite Hlx in Hl'. injection Hl' as <-. destruct Hcase as [[Hb' _]|(_ & Hsa & [[Hty _]|Hy'])]; [congruence|auto|auto].
      + intros a (x & y & l & H1 & H2 & H3 & H4 & H5). destruct (l_arc _ _ _ _ _ _ _ L a x y H1 H2 ltac:(by exists l)) as (l' & Hl' & Hcase).
        rewrite H3 in Hl'. injection Hl' as <-. destruct Hcase as [[_ [Hsa|(l' & Hly & Hle)]]|(Hb & _)]; [congruence| |done]. exfalso.
        destruct H5 as [H5|[H5 _]]; [rewrite (l_target _ _ _ _ _ _ _ L y l' Hly) in H5; done|]. rewrite H5 in Hly. injection Hly as <-. lia.
      + assert (forall l x, lev x = Some l -> good (f_sat f) lev x -> exists z, node_in source z = true /\ good (f_sat f) lev z) as Hback.
        { induction l as [|l IH]; intros x Hx Hg; [exists x; split; [by apply (l_source _ _ _ _ _ _ _ L)|done]|].
          destruct (l_pred _ _ _ _ _ _ _ L x l Hx) as (a & z & H1 & H2 & H3 & H4). apply (IH z H3). by eapply good_step. }
        destruct (l_found _ _ _ _ _ _ _ L eq_refl) as (a & x & y & l & H1 & H2 & H3 & H4 & H5).
        destruct (Hback l x H3) as (z & Hz & Hg); [by eapply good_target|]. destruct (Hgood z Hg) as (b & Hb & Hbt). exists b, z. done.
      + rewrite Ha, bind_S. eexists. split; [done|]. split; [|split; [right; cbn; split; [done|lia]|done]].
        split; cbn [f_source f_target f_intensity f_sat f_blocked f_finished]; try done.
        destruct Hfl as [F1 F2 F3]. split; [done|done|]. intros S HS. rewrite (F3 S HS). f_equal. lia.
    - eexists. split; [done|]. split; [|split; [by left|done]].
      split; cbn [f_source f_target f_intensity f_sat f_blocked f_finished]; try done.
      + apply (l_len _ _ _ _ _ _ _ L).
      + intros _. exists (fun x => is_Some (lev x)). split; [|split].
        * intros a x y Hx Hy Hf Hlx. destruct (l_arc _ _ _ _ _ _ _ L a x y Hx Hy Hlx) as (l & Hl' & Hcase). unfold fo in Hf. apply negb_true_iff in Hf.
          destruct Hcase as [[_ [Hsa|(l' & Hly & _)]]|(_ & _ & [[_ ?]|Hly])]; [congruence|by exists l'|done|by eexists].
        * intros x Hx. exists 0. by apply (l_source _ _ _ _ _ _ _ L).
        * intros x Hx [l Hl']. rewrite (l_target _ _ _ _ _ _ _ L x l Hl') in Hx. done.
  Qed.

  Lemma source_separates : separates g source source target.
  Proof. destruct Hst as (Hs & Ht & Hd). split; [done|]. split; [done|]. intros x Hx. destruct (node_in source x) eqn:E; [|done]. rewrite (Hd x E) in Hx. done. Qed.

  (** The flow is at most as large as any cut. *)
  Lemma intensity_le f S : fl_ok f -> separates g S source target -> f_intensity f <= cut_arcs g S.
  Proof.
    intros H HS. pose proof (i_net _ _ _ _ _ _ (fl_flow _ H) S HS) as Hn. pose proof (net_le_cut g (f_sat f) S) as Hle. lia.
  Qed.
  Lemma intensity_le_m f : fl_ok f -> f_intensity f <= m.
  Proof.
    intros H. pose proof (intensity_le f source H source_separates). unfold cut_arcs in *.
    pose proof (filter_length (fun a => leaves g source a = true) (seq 0 m)) as Hl. rewrite seq_length in Hl. lia.
  Qed.

  (** A set that no free arc leaves is a minimum cut. *)
  Lemma closed_minimum f (S : list bool) : fl_ok f -> length S = n -> closed g (fo (f_sat f)) (fun x => node_in S x = true) ->
    (forall x, node_in source x = true -> node_in S x = true) -> (forall x, node_in target x = true -> node_in S x = false) ->
    separates g S source target /\ f_intensity f = cut_arcs g S.
  Proof.
    intros H HS Hc H1 H2. assert (separates g S source target) as Hsep by done. split; [done|].
    pose proof (i_net _ _ _ _ _ _ (fl_flow _ H) S Hsep) as Hn.
    rewrite (net_eq_cut g Hok) in Hn; [lia|apply (i_excl _ _ _ _ _ _ (fl_flow _ H))|].
    intros a Ha. unfold leaves in Ha. destruct (fr_tail g !! a) as [x|] eqn:Ex; [|done]. destruct (fr_head g !! a) as [y|] eqn:Ey; [|done].
    apply andb_true_iff in Ha as [Hx Hy]. apply negb_true_iff in Hy. destruct (node_in (f_sat f) a) eqn:E; [done|].
    rewrite (Hc a x y Ex Ey) in Hy; [done| |done]. unfold fo. by rewrite E.
  Qed.
  Lemma cut_source f (S : list bool) : fl_ok f -> length S = n -> closed g (fo (f_sat f)) (fun x => node_in S x = true) ->
    (forall x, node_in source x = true -> node_in S x = true) -> (forall x, node_in target x = true -> node_in S x = false) ->
    minimum_cut g source target (mkCut (length (marked S n)) (f_intensity f) S).
  Proof.
    intros H HS Hc H1 H2. destruct (closed_minimum f S H HS Hc H1 H2) as [Hsep Heq]. split; [done|]. split; [done|]. split; [|done].
    intros S' HS'. by apply intensity_le.
  Qed.
  Lemma cut_target f (T : list bool) : fl_ok f -> length T = n -> closed g (fi (f_sat f)) (fun x => node_in T x = true) ->
    (forall x, node_in target x = true -> node_in T x = true) -> (forall x, node_in source x = true -> node_in T x = false) ->
    minimum_cut g target source (mkCut (length (marked T n)) (f_intensity f) T).
  Proof.
    intros H HT Hc H1 H2. destruct Hst as (Hs & Ht & Hd).
    destruct (closed_minimum f (negb <$> T) H) as [Hsep Heq].
    - by rewrite fmap_length.
    - apply compl_fo in Hc. intros a x y Hx Hy Hf Hin. destruct (frag_tail_lt g Hok _ _ Hx) as [Ham Hxn]. destruct (frag_head g Hok a Ham) as (y' & Hy' & Hyn).
      rewrite Hy in Hy'. injection Hy' as <-. rewrite node_in_negb in Hin |- * by lia. apply negb_true_iff in Hin. apply negb_true_iff.
      pose proof (Hc a x y Hx Hy Hf) as Hc'. cbn in Hc'. rewrite Hin in Hc'. destruct (node_in T y); [|done]. exfalso. by apply Hc'.
    - intros x Hx. pose proof (node_in_lt _ _ Hx). rewrite node_in_negb by lia. by rewrite (H2 x Hx).
    - intros x Hx. pose proof (node_in_lt _ _ Hx). rewrite node_in_negb by lia. by rewrite (H1 x Hx).
    - rewrite cut_arcs_negb in Heq by done. split; [by split|]. split; [done|]. split; [|done]. cbn [c_size].
      intros S' HS'. pose proof HS' as (HSl & _ & _). rewrite <- (cut_arcs_negb g Hok S' HSl). apply (intensity_le f); [done|]. by apply separates_negb.
  Qed.

  (** :214-247 *)
  Lemma source_cut_spec asserts f : fl_ok f -> f_finished f = true -> exists c, get_source_cut g asserts f = Some c /\ minimum_cut g source target c.
  Proof.
    intros H Hf. destruct (fl_finished _ H Hf) as (R & HR & HRs & HRt). pose proof (fl_flow _ H) as [Hl _ _]. destruct Hst as (Hs & Ht & Hd).
    unfold get_source_cut. rewrite Hf. replace (implb asserts true) with true by (by destruct asserts). cbn [chk]. rewrite bind_S.
    destruct (side_search g Hok (free_out (f_sat f)) (fo (f_sat f)) (fun a Ha => free_out_fo _ a Hl Ha) R HR source Hs HRs) as (s & side & Hs1 & Hs2 & Hlen & Hsub & HsR & Hc).
    rewrite (fl_source _ H), Hs1, bind_S, Hs2, bind_S. eexists. split; [done|]. apply cut_source; try done.
    intros x Hx. destruct (node_in side x) eqn:E; [|done]. exfalso. by apply (HRt x Hx), HsR.
  Qed.
  (** :249-283 *)
  Lemma target_cut_spec asserts f : fl_ok f -> f_finished f = true -> exists c, get_target_cut g asserts f = Some c /\ minimum_cut g target source c.
  Proof.
    intros H Hf. destruct (fl_finished _ H Hf) as (R & HR & HRs & HRt). pose proof (fl_flow _ H) as [Hl _ _]. destruct Hst as (Hs & Ht & Hd).
    unfold get_target_cut. rewrite Hf. replace (implb asserts true) with true by (by destruct asserts). cbn [chk]. rewrite bind_S.
    destruct (side_search g Hok (free_in g (f_sat f)) (fi (f_sat f)) (fun a Ha => free_in_fi _ a Hl Ha) (fun x => ~ R x) (compl_fi _ _ HR) target Ht HRt) as (s & side & Hs1 & Hs2 & Hlen & Hsub & HsR & Hc).
    rewrite (fl_target _ H), Hs1, bind_S, Hs2, bind_S. eexists. split; [done|]. apply cut_target; try done.
    intros x Hx. destruct (node_in side x) eqn:E; [|done]. exfalso. by apply (HsR x E), HRs.
  Qed.

  (** A side of get_balanced_cut when no search is going on. *)
  Record hs (fr : nat -> bool) (h : half) : Prop := {
    hs_len : length (h_side h) = n;
    hs_half : exists dn A, marked (h_side h) n ≡ₚ dn /\ half_ok g dn A h;
    hs_closed : closed g fr (fun x => node_in (h_side h) x = true) }.

  Lemma hs_count fr h : hs fr h -> h_count h = length (marked (h_side h) n).
  Proof. intros H. destruct (hs_half _ _ H) as (dn & A & Hp & Hh). rewrite Hp. apply (h_count_ok _ _ _ _ Hh). Qed.

  Lemma search_hs fr R dn A stack h : search g fr R (of_nodes g dn) dn [] stack 0 (h_side h) -> half_ok g dn A h -> hs fr h.
  Proof.
    intros H Hh. split.
    - apply (s_side _ _ _ _ _ _ _ _ _ H).
    - exists dn, A. split; [|done]. rewrite (s_perm _ _ _ _ _ _ _ _ _ H). by rewrite app_nil_r.
    - intros a x y Hx Hy Hf Hin. eapply (s_done _ _ _ _ _ _ _ _ _ H); [|exact Hx|exact Hy|done]. exists x. split; [done|].
      eapply search_mem in Hin; [|exact H]. by rewrite app_nil_r in Hin.
  Qed.

  (** The first search on a side (:359-365). *)
  Lemma enlarge_start asserts free fr R (mark : list bool) stack : (forall a, a < m -> free a = Some (fr a)) -> closed g fr R -> length mark = n -> (forall x, node_in mark x = true -> R x) ->
    length stack = n -> exists stack1 stack2 h, push_marked g mark stack = Some (stack1, length (marked mark n)) /\
      enlarge g asserts free n (stack1, length (marked mark n), mkHalf mark 0 (replicate m 0) 0) = Some (stack2, h) /\ length stack2 = n /\
      hs fr h /\ (forall x, node_in mark x = true -> node_in (h_side h) x = true) /\ (forall x, node_in (h_side h) x = true -> R x).
  Proof.
    intros Hfr HR Hm HRm Hstk. destruct (push_marked_spec g mark stack Hm Hstk) as (stack1 & Hp & Hsa).
    destruct (enlarge_spec g Hok free fr Hfr R HR asserts n [] [] (marked mark n) stack1 (length (marked mark n)) (mkHalf mark 0 (replicate m 0) 0)) as (stack2 & h & dn & A & He & Hl & Hs & Hh & Hmono).
    - cbn [h_side]. split; try done. intros a x y (z & _ & Hz). by apply elem_of_nil in Hz.
    - split; cbn [h_count h_pend h_pierce]; try done; [constructor|intros a Ha; by apply elem_of_nil in Ha|].
      exists []. split; [apply sarr_init|]. intros y Hy. by apply elem_of_nil in Hy.
    - lia.
    - exists stack1, stack2, h. split; [done|]. split; [done|]. split; [done|]. split; [by eapply search_hs|]. split; [exact Hmono|]. apply (s_R _ _ _ _ _ _ _ _ _ Hs).
  Qed.

  (** :369-381 *)
  Lemma find_pierce_spec fr h (other : list bool) pend : hs fr h -> length other = n -> pend <= h_pend h ->
    exists r, find_pierce h other pend = Some r /\ match r with None => True | Some (y, pend') => y < n /\ node_in (h_side h) y = false /\ node_in other y = false /\ pend' <= h_pend h end.
  Proof.
    intros H Ho. destruct (hs_half _ _ H) as (dn & A & _ & Hh). destruct (h_arr _ _ _ _ Hh) as (l & Hl & Hln). pose proof Hl as (_ & Hll & _).
    induction pend as [|pend IH]; intros Hle; cbn [find_pierce]; [by exists None|].
    destruct (lookup_lt_is_Some_2 l pend) as [y Hy]; [lia|]. rewrite (sarr_lookup _ _ _ _ _ Hl) by lia. rewrite Hy, bind_S.
    assert (y < n) as Hyn by (by eapply Hln, elem_of_list_lookup_2).
    rewrite (lk_bool (h_side h) n y (hs_len _ _ H) Hyn), bind_S. destruct (node_in (h_side h) y) eqn:E1; [apply IH; lia|].
    rewrite (lk_bool other n y Ho Hyn), bind_S. destruct (node_in other y) eqn:E2; [apply IH; lia|].
    exists (Some (y, pend)). split; [done|]. split; [done|]. split; [done|]. split; [done|lia].
  Qed.

  (** :382-384 *)
  Lemma pierce_spec asserts free fr R stack h y pend : (forall a, a < m -> free a = Some (fr a)) -> closed g fr R -> hs fr h -> (forall x, node_in (h_side h) x = true -> R x) -> R y ->
    y < n -> node_in (h_side h) y = false -> pend <= h_pend h -> length stack = n ->
    exists stack' h', pierce g asserts free stack h y pend = Some (stack', h') /\ length stack' = n /\ hs fr h' /\ h_count h < h_count h' /\
      (forall x, node_in (h_side h) x = true -> node_in (h_side h') x = true) /\ (forall x, node_in (h_side h') x = true -> R x).
  Proof.
    intros Hfr HR H HsR HRy Hyn Hy Hpend Hstk. unfold pierce. pose proof (hs_len _ _ H) as Hl. rewrite (wr_Some (h_side h)) by lia. rewrite bind_S. rewrite (wr_Some stack) by lia. rewrite bind_S.
    destruct (hs_half _ _ H) as (dn & A & Hp & Hh).
    destruct (enlarge_spec g Hok free fr Hfr R HR asserts n dn A [y] (<[0:=y]> stack) 1 (mkHalf (<[y:=true]> (h_side h)) (h_count h) (h_pierce h) pend)) as (stack2 & h2 & dn2 & A2 & He & Hl2 & Hs2 & Hh2 & Hmono).
    - cbn [h_side]. split.
      + split; [by rewrite insert_length|]. split; [done|]. destruct stack; [cbn in Hstk; lia|]. done.
      + by rewrite insert_length.
      + rewrite (marked_insert (h_side h) y n) by (done || lia). by rewrite Hp.
      + intros x. rewrite node_in_insert by lia. case_decide; [by subst|]. apply HsR.
      + intros a x z (x' & Hx' & Hin) Hx Hz Hf. rewrite Hx in Hx'. injection Hx' as <-. rewrite node_in_insert by lia. case_decide; [done|].
        eapply (hs_closed _ _ H); [exact Hx|exact Hz|done|]. rewrite <- Hp in Hin. by apply marked_in in Hin as [_ ?].
    - destruct Hh as [A1 A2 A3 A4 (l & Hl1 & Hl2)]. split; cbn [h_count h_pend h_pierce]; try done; [lia|]. exists (take pend l). split.
      + destruct Hl1 as (B1 & B2 & B3). split; [done|]. split; [rewrite take_length; lia|]. rewrite <- B3. rewrite take_take. f_equal. lia.
      + intros z Hz. apply Hl2. eapply elem_of_submseteq; [exact Hz|]. apply sublist_submseteq, sublist_take.
    - lia.
    - exists stack2, h2. split; [done|]. split; [done|]. pose proof (search_hs _ _ _ _ _ _ Hs2 Hh2) as H2. cbn [h_side] in Hmono.
      assert (forall x, node_in (h_side h) x = true -> node_in (h_side h2) x = true) as Hmono'.
      { intros x Hx. apply Hmono. rewrite node_in_insert by lia. by case_decide. }
      split; [done|]. split; [|split; [done|apply (s_R _ _ _ _ _ _ _ _ _ Hs2)]].
      rewrite (hs_count _ _ H), (hs_count _ _ H2).
      assert (length (marked (h_side h) n ++ [y]) <= length (marked (h_side h2) n)) as Hlen; [|rewrite app_length in Hlen; cbn in Hlen; lia].
      apply submseteq_length, NoDup_submseteq.
      + apply nodup_snoc; [apply marked_NoDup|]. rewrite marked_in. intros [_ ?]. congruence.
      + intros x Hx. apply marked_in. apply elem_of_app in Hx as [Hx|Hx].
        * apply marked_in in Hx as [? ?]. split; [done|by apply Hmono'].
        * apply elem_of_list_singleton in Hx as ->. split; [done|]. apply Hmono. rewrite node_in_insert by lia. by rewrite decide_True.
  Qed.

  (** :367-403 *)
  Lemma balance_loop_spec asserts f fuel stack s t : fl_ok f -> hs (fo (f_sat f)) s -> hs (fi (f_sat f)) t -> length stack = n ->
    (forall x, node_in source x = true -> node_in (h_side s) x = true) -> (forall x, node_in target x = true -> node_in (h_side t) x = true) ->
    (forall x, node_in (h_side s) x = true -> node_in (h_side t) x = true -> False) -> n < fuel + (h_count s + h_count t) ->
    exists c, balance_loop g asserts (f_sat f) (f_intensity f) fuel stack s t = Some c /\
      (minimum_cut g source target c /\ h_count s <= c_count c \/ minimum_cut g target source c /\ h_count t <= c_count c).
  Proof.
    intros H. pose proof (fl_flow _ H) as [Hl _ _]. revert stack s t. induction fuel as [|fuel IH]; intros stack s t Hs Ht Hstk Hss Htt Hdis Hfuel.
    - exfalso. rewrite (hs_count _ _ Hs), (hs_count _ _ Ht) in Hfuel.
      assert (length (marked (h_side s) n ++ marked (h_side t) n) <= n) as Hlen; [|rewrite app_length in Hlen; lia].
      apply nodup_lt_len.
      + apply NoDup_app. split; [apply marked_NoDup|]. split; [|apply marked_NoDup]. intros x Hx Hx'. apply marked_in in Hx as [_ Hx]. apply marked_in in Hx' as [_ Hx']. by eapply Hdis.
      + intros x Hx. apply elem_of_app in Hx as [Hx|Hx]; by apply marked_in in Hx as [? _].
    - cbn [balance_loop]. destruct (h_count s <=? h_count t).
      + destruct (find_pierce_spec _ s (h_side t) (h_pend s) Hs (hs_len _ _ Ht) ltac:(lia)) as (r & Hr & Hspec). rewrite Hr, bind_S. destruct r as [[y pend]|].
        * destruct Hspec as (Hyn & Hys & Hyt & Hpe).
          destruct (pierce_spec asserts (free_out (f_sat f)) (fo (f_sat f)) (fun x => ~ node_in (h_side t) x = true) stack s y pend (fun a Ha => free_out_fo _ a Hl Ha) (compl_fo _ _ (hs_closed _ _ Ht)) Hs)
            as (stack' & s' & Hp & Hl' & Hs' & Hc & Hmono & HR); [intros x Hx Hx'; by eapply Hdis|by rewrite Hyt|done..|].
          rewrite Hp, bind_S. destruct (IH stack' s' t) as (c & Hc1 & Hc2); [done|done|done|auto|auto|intros x Hx Hx'; by apply (HR x Hx)|lia|].
          exists c. split; [done|]. destruct Hc2 as [[? ?]|[? ?]]; [left|right]; (split; [done|lia]).
        * eexists. split; [done|]. left. cbn [c_count]. split; [|done]. rewrite (hs_count _ _ Hs). apply cut_source; try done.
          -- apply (hs_len _ _ Hs).
          -- apply (hs_closed _ _ Hs).
          -- intros x Hx. destruct (node_in (h_side s) x) eqn:E; [|done]. exfalso. by eapply Hdis, Htt.
      + destruct (find_pierce_spec _ t (h_side s) (h_pend t) Ht (hs_len _ _ Hs) ltac:(lia)) as (r & Hr & Hspec). rewrite Hr, bind_S. destruct r as [[y pend]|].
        * destruct Hspec as (Hyn & Hyt & Hys & Hpe).
          destruct (pierce_spec asserts (free_in g (f_sat f)) (fi (f_sat f)) (fun x => ~ node_in (h_side s) x = true) stack t y pend (fun a Ha => free_in_fi _ a Hl Ha) (compl_fi _ _ (hs_closed _ _ Hs)) Ht)
            as (stack' & t' & Hp & Hl' & Ht' & Hc & Hmono & HR); [intros x Hx Hx'; by eapply Hdis|by rewrite Hys|done..|].
          rewrite Hp, bind_S. destruct (IH stack' s t') as (c & Hc1 & Hc2); [done|done|done|auto|auto|intros x Hx Hx'; by apply (HR x Hx')|lia|].
          exists c. split; [done|]. destruct Hc2 as [[? ?]|[? ?]]; [left|right]; (split; [done|lia]).
        * eexists. split; [done|]. right. cbn [c_count]. split; [|done]. rewrite (hs_count _ _ Ht). apply cut_target; try done.
          -- apply (hs_len _ _ Ht).
          -- apply (hs_closed _ _ Ht).
          -- intros x Hx. destruct (node_in (h_side t) x) eqn:E; [|done]. exfalso. by eapply Hdis; [apply Hss|].
  Qed.

  (** :285-406 *)
  Lemma balanced_cut_spec asserts f : fl_ok f -> f_finished f = true ->
    exists c, get_balanced_cut g asserts f = Some c /\ (minimum_cut g source target c \/ minimum_cut g target source c).
  Proof.
    intros H Hf. destruct (fl_finished _ H Hf) as (R & HR & HRs & HRt). pose proof (fl_flow _ H) as [Hl _ _]. destruct Hst as (Hs & Ht & Hd).
    unfold get_balanced_cut. rewrite Hf. replace (implb asserts true) with true by (by destruct asserts). cbn [chk]. rewrite bind_S.
    destruct (enlarge_start asserts (free_out (f_sat f)) (fo (f_sat f)) R source (replicate n 0) (fun a Ha => free_out_fo _ a Hl Ha) HR Hs HRs) as (stack1 & stack2 & s & Hp1 & He1 & Hl2 & Hss & Hsub & HsR).
    { apply replicate_length. }
    rewrite (fl_source _ H), Hp1, bind_S, He1, bind_S.
    destruct (enlarge_start asserts (free_in g (f_sat f)) (fi (f_sat f)) (fun x => ~ R x) target stack2 (fun a Ha => free_in_fi _ a Hl Ha) (compl_fi _ _ HR) Ht HRt Hl2) as (stack3 & stack4 & t & Hp2 & He2 & Hl4 & Hts & Hsubt & HtR).
    rewrite (fl_target _ H), Hp2, bind_S, He2, bind_S.
    destruct (balance_loop_spec asserts f (n + 1) stack4 s t H Hss Hts Hl4 Hsub Hsubt) as (c & Hc & Hmin).
    - intros x Hx Hx'. by apply (HtR x Hx'), HsR.
    - lia.
    - exists c. split; [done|]. destruct Hmin as [[? _]|[? _]]; auto.
  Qed.
End Cut.
