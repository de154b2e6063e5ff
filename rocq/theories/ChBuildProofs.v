(** The three ways of building a contraction hierarchy. *)
From Verif Require Import Base UtilSpec GraphSpec WalkSpec PermutationModel PermutationProofs ChCleanModel ChCleanSpec ChCleanProofs
  ChGraphModel ChGraphProofs ChContractProofs ChHierarchyProofs ChBuildModel ChLoopProofs ChSpec ChFinishProofs ChCacheProofs.
Ltac Zify.zify_post_hook ::= idtac.

(** The graph the contraction starts with. *)
Lemma start_graph asserts n tail head w :
  arc_list n tail head w ->
  exists a g, clean_arcs asserts n tail head w = Some a /\ cleaned tail head w (a_tail a) (a_head a) (a_weight a) (a_id a) /\
    new_graph n (a_tail a) (a_head a) (a_weight a) = Some g /\ gok n g /\
    (forall u v x m, garcs g u v x m <-> m = None /\ arcs_of (a_tail a) (a_head a) (a_weight a) u v x).
Proof.
  intros Hin. destruct (clean_arcs_correct asserts n tail head w Hin) as (a & Ha & Hcl).
  destruct (cl_len _ _ _ _ _ _ _ Hcl) as (L1 & L2 & L3). exists a.
  assert (forall i u v, a_tail a !! i = Some u -> a_head a !! i = Some v -> u <> v /\ u < n /\ v < n) as Hlt.
  { intros i u v Hu Hv. destruct (lookup_lt_is_Some_2 (a_weight a) i) as [x Hx]; [apply lookup_lt_Some in Hv; lia|].
    destruct (lookup_lt_is_Some_2 (a_id a) i) as [e He]; [apply lookup_lt_Some in Hv; lia|].
    destruct (cl_sound _ _ _ _ _ _ _ Hcl i u v x e) as (Hne & (H1 & H2 & _) & _); [done|done|].
    destruct Hin as (_ & _ & Ht & Hh). rewrite Forall_lookup in Ht. rewrite Forall_lookup in Hh. split; [done|]. split; [by eapply Ht|by eapply Hh]. }
  destruct (new_graph_spec n (a_tail a) (a_head a) (a_weight a)) as (g & Hg & Hok & _ & Hf).
  - lia.
  - lia.
  - intros i u Hu. destruct (lookup_lt_is_Some_2 (a_head a) i) as [v Hv]; [apply lookup_lt_Some in Hu; lia|]. by destruct (Hlt i u v Hu Hv) as (_ & ? & _).
  - intros i v Hv. destruct (lookup_lt_is_Some_2 (a_tail a) i) as [u Hu]; [apply lookup_lt_Some in Hv; lia|]. by destruct (Hlt i u v Hu Hv) as (_ & _ & ?).
  - intros i j u v H1 H3 H2 H4. by eapply (clean_unique tail head w a Hcl).
  - intros i u Hu Hv. by destruct (Hlt i u u Hu Hv) as (? & _).
  - exists g. split; [done|]. split; [done|]. split; [done|]. split; [done|]. intros u v x m. unfold garcs. split.
    + intros (h & (-> & -> & Hx)%Hf). done.
    + intros [-> Hx]. exists 1%N. apply Hf. done.
Qed.

(** What [finish_ch] needs follows from a sequence of contractions. *)
Lemma finish_from_contr asserts n tail head w a g zs rank order f b :
  arc_list n tail head w -> cleaned tail head w (a_tail a) (a_head a) (a_weight a) (a_id a) -> gok n g ->
  (forall u v x m, garcs g u v x m <-> m = None /\ arcs_of (a_tail a) (a_head a) (a_weight a) u v x) ->
  perm zs -> length zs = n -> raw_ok f -> raw_ok b -> contr zs (garcs g) (raw_arc f) (raw_arc b) ->
  length order = n -> perm order -> inverse_of order rank -> ups rank (raw_arc f) -> ups rank (raw_arc b) ->
  exists c, finish_ch asserts n a rank order f b = Some c /\ ch_order c = order /\ ch_rank c = rank /\ ch_full n tail head w c.
Proof.
  intros Hin Hcl Hg Hga Hpz Hlz Hf Hb Hc Hlo Hpo Hinv Hupf Hupb.
  assert (within zs (garcs g)) as Hw. { eapply within_all; [done|]. intros x Hx. destruct (perm_surj zs x Hpz) as [i Hi]; [lia|]. by eapply elem_of_list_lookup_2. }
  destruct (contr_func _ _ _ _ Hc Hw (perm_NoDup _ Hpz)) as [HF HB].
  destruct (contr_just _ _ _ _ (arcs_of (a_tail a) (a_head a) (a_weight a)) Hc) as [J1 J2]. { intros u v x m H. by apply Hga. }
  apply (finish_ch_spec asserts n tail head w a rank order f b Hin Hcl Hlo Hpo Hinv Hf Hb HF HB Hupf Hupb J1 J2).
  intros u v L Hu Hv Hd. eapply (contr_complete zs (garcs g)); [done|done| | |].
  - destruct (perm_surj zs u Hpz) as [i Hi]; [lia|]. by eapply elem_of_list_lookup_2.
  - destruct (perm_surj zs v Hpz) as [i Hi]; [lia|]. by eapply elem_of_list_lookup_2.
  - destruct Hd as [?|(k & Hk)]; [by left|]. right. exists k. eapply gw_sub; [|exact Hk]. intros p q x Hx. exists None. by apply Hga.
Qed.

Lemma contr_ups n g zs rank F B : gok n g -> perm zs -> length zs = n -> contr zs (garcs g) F B -> inverse_of zs rank -> ups rank F /\ ups rank B.
Proof.
  intros Hg Hpz Hlz Hc Hinv.
  assert (within zs (garcs g)) as Hw. { eapply within_all; [done|]. intros x Hx. destruct (perm_surj zs x Hpz) as [i Hi]; [lia|]. by eapply elem_of_list_lookup_2. }
  destruct (contr_up _ _ _ _ Hc Hw) as [U1 U2].
  split; intros u v x m H; [destruct (U1 _ _ _ _ H) as (i & j & Hi & Hj & Hij)|destruct (U2 _ _ _ _ H) as (i & j & Hi & Hj & Hij)];
    exists i, j; (split; [by apply Hinv|split; [by apply Hinv|done]]).
Qed.

Lemma inverse_of_sym p q : inverse_of p q -> inverse_of q p.
Proof. intros [Hl H]. split; [done|]. intros i x. symmetry. apply H. Qed.

Theorem ch_build_given_rank_ok asserts max_pop rank tail head w :
  perm rank -> arc_list (length rank) tail head w ->
  exists c, ch_build_given_rank asserts max_pop rank tail head w = Some c /\ ch_rank c = rank /\ ch_full (length rank) tail head w c.
Proof.
  intros Hp Hin. unfold ch_build_given_rank. cbv zeta.
  destruct (start_graph asserts _ tail head w Hin) as (a & g & -> & Hcl & Hg & Hok & Hga). rewrite bind_S, Hg, bind_S.
  destruct (build_ch_given_rank_spec _ max_pop g rank Hok Hp eq_refl) as (order & f & b & -> & Hinv & Hf & Hb & Hc). rewrite bind_S.
  pose proof (inverse_of_perm _ _ Hp Hinv) as Hpo. destruct (Hinv) as [Hlo _]. apply inverse_of_sym in Hinv.
  destruct (contr_ups _ _ _ rank _ _ Hok Hpo Hlo Hc Hinv) as [U1 U2].
  destruct (finish_from_contr asserts (length rank) tail head w a g order rank order f b) as (c & -> & _ & Hr & Hco); [done..|]. by exists c.
Qed.

Theorem ch_build_given_order_ok asserts max_pop order tail head w :
  perm order -> arc_list (length order) tail head w ->
  exists c, ch_build_given_order asserts max_pop order tail head w = Some c /\ inverse_of order (ch_rank c) /\ ch_full (length order) tail head w c.
Proof.
  intros Hp Hin. unfold ch_build_given_order. destruct (invert_permutation_correct order Hp) as (rank & -> & Hinv & Hpr). rewrite bind_S.
  destruct Hinv as [Hl Hinv]. rewrite <- Hl in *.
  destruct (ch_build_given_rank_ok asserts max_pop rank tail head w Hpr Hin) as (c & -> & <- & Hco). exists c. done.
Qed.

Theorem ch_build_ok asserts max_pop n tail head w :
  arc_list n tail head w ->
  exists c, ch_build asserts max_pop n tail head w = Some c /\ ch_full n tail head w c.
Proof.
  intros Hin. unfold ch_build.
  destruct (start_graph asserts _ tail head w Hin) as (a & g & -> & Hcl & Hg & Hok & Hga). rewrite bind_S, Hg, bind_S.
  destruct (build_ch_and_order_spec n max_pop g Hok) as (rank & zs & f & b & -> & Hlz & Hpz & Hinv & Hf & Hb & Hc). rewrite bind_S.
  destruct (contr_ups _ _ _ rank _ _ Hok Hpz Hlz Hc Hinv) as [U1 U2]. pose proof (proj1 Hinv) as Hlr.
  assert (forall E, ups rank E -> forall u v x m, E u v x m -> u < n /\ v < n) as Hlt.
  { intros E HE u v x m H. destruct (HE _ _ _ _ H) as (i & j & Hi & Hj & _). rewrite <- Hlz, <- Hlr. split; by eapply lookup_lt_Some. }
  destruct (sort_side_spec asserts n f Hf (Hlt _ U1)) as (f2 & ff & -> & Hf2 & Hcf & _ & Hof & Hff). rewrite bind_S.
  destruct (sort_side_spec asserts n b Hb (Hlt _ U2)) as (b2 & bf & -> & Hb2 & Hcb & _ & Hob & Hbb). rewrite bind_S.
  assert (forall x y e, arc_from_to ff (r_head f2) x y e -> exists v m, raw_arc f x y v m) as HF.
  { intros x y e [He%Hof Hy]. destruct (raw_arc_at f2 e x Hf2 He) as (y' & v & m & Hy' & _ & _ & Ha). rewrite Hy in Hy'. injection Hy' as <-. exists v, m. by apply Hff. }
  assert (forall x y e, arc_from_to bf (r_head b2) x y e -> exists v m, raw_arc b x y v m) as HB.
  { intros x y e [He%Hob Hy]. destruct (raw_arc_at b2 e x Hb2 He) as (y' & v & m & Hy' & _ & _ & Ha). rewrite Hy in Hy'. injection Hy' as <-. exists v, m. by apply Hbb. }
  destruct (optimize_order_for_cache_spec n rank ff (r_head f2) bf (r_head b2)) as (nr & no & -> & Hln & Hpn & Hinvn & Hup).
  - lia.
  - by eapply inverse_of_perm.
  - done.
  - done.
  - intros x y [(e & He)|(e & He)]; [apply HF in He as (v & m & Ha); by eapply U1|apply HB in He as (v & m & Ha); by eapply U2].
  - rewrite bind_S.
    destruct (finish_from_contr asserts n tail head w a g zs nr no f2 b2) as (c & -> & _ & _ & Hco); try done.
    + eapply contr_iff; [done| |]; intros u v x m; [apply Hff|apply Hbb].
    + intros u v x m (i & H1 & H2 & _). apply Hup. left. exists i. split; [by apply Hof|done].
    + intros u v x m (i & H1 & H2 & _). apply Hup. right. exists i. split; [by apply Hob|done].
    + by exists c.
Qed.
