(** The hierarchy that perfect customization builds from the arcs that it keeps. *)
From Verif Require Import Base UtilSpec GraphSpec PermutationModel PermutationProofs CchModel CchSpec CchCustomizeProofs CchTriangleProofs CchQueryProofs CchUnpackProofs CchChordalProofs CchBuildProofs CchFilterProofs ChBuildModel ChSpec ChCheckModel CchPerfectModel CchPerfectProofs CchPerfectDistProofs WalkSpec.
Ltac Zify.zify_post_hook ::= idtac.

Section Input.
  Context (n : nat) (rt rh : list nat) (c : cch) (WF : wf_cch n rt rh c) (w : list N) (Hlen : length w = length rt).
  (** The search for an input arc always ends, whatever the metric is. *)
  Lemma unpack_original_total m d a u v x :
    up_arc c a u v -> dw m d a = Some x ->
    exists o, unpack_original c w d m a = Some o /\
      match o with Some e' => dir_arc rt rh d u v e' /\ w !! e' = Some x | None => forall e, dir_arc rt rh d u v e -> w !! e <> Some x end.
  Proof.
    intros Ha Hx. destruct (wf_inputs _ _ _ _ WF d _ _ _ Ha) as (o & l & Hin & Hnone & Hsp).
    assert (forall e', o = Some e' \/ e' ∈ l -> is_Some (w !! e')) as Hsome.
    { intros e' He'%Hsp. apply lookup_lt_is_Some_2. rewrite Hlen.
      destruct (wf_ends _ _ _ _ WF) as (Hl & _). destruct d, He' as [H1 H2]; [by eapply lookup_lt_Some|].
      by eapply lookup_lt_Some. }
    unfold unpack_original. unfold arc_inputs in Hin.
    destruct (has_input c !! a) as [h|]; [|done]. bs. destruct h; cbn [negb] in *.
    2:{ simplify_eq. exists None. split; [done|]. intros e He. apply Hsp in He as [?|?%elem_of_nil]; done. }
    destruct (local_id (has_input c) a) as [i|]; [|done]. bs.
    destruct ((if d then fwd_input c else bwd_input c) !! i) as [o'|] eqn:Ho; [|done]. bs.
    destruct (has_extra c !! a) as [h|] eqn:Hh; [|done]. bs.
    assert (o' = o) as ->.
    { destruct h; cbn [negb] in Hin; [|by simplify_eq].
      repeat match type of Hin with (?x ≫= _) = _ => destruct x; [rewrite bind_S in Hin|done] end. by simplify_eq. }
    destruct o as [e0|].
    2:{ exists None. split; [done|]. intros e He. rewrite Hnone in Hsp by done. apply Hsp in He as [?|?%elem_of_nil]; done. }
    replace ((if d then m_fwd m else m_bwd m) !! a) with (Some x) by (by rewrite <- Hx; unfold dw). bs.
    destruct (Hsome e0) as [x0 Hx0]; [by left|]. rewrite Hx0. bs.
    destruct (N.eqb_spec x x0) as [->|Hne].
    { exists (Some e0). split; [done|]. split; [|done]. apply Hsp. by left. }
    destruct h; cbn [negb] in *.
    2:{ simplify_eq. exists None. split; [done|]. intros e He. apply Hsp in He as [[= ->]|?%elem_of_nil]; [congruence|done]. }
    destruct (local_id (has_extra c) a) as [j|]; [|done]. bs.
    destruct ((if d then first_extra_fwd c else first_extra_bwd c) !! j) as [lo|] eqn:Hlo; [|done]. bs.
    destruct ((if d then first_extra_fwd c else first_extra_bwd c) !! S j) as [hi|] eqn:Hhi; [|done]. bs.
    destruct (mapM (fun k => (if d then extra_fwd c else extra_bwd c) !! k) (seq lo (hi - lo))) as [l'|] eqn:Hl; [|done]. bs. simplify_eq.
    destruct (find_extra_spec w (if d then extra_fwd c else extra_bwd c) l x _ _ Hl) as (o & Hr & Hspec).
    { apply Forall_forall. intros. apply Hsome. by right. }
    rewrite Hr. exists o. split; [done|]. destruct o as [e'|].
    - split; [apply Hsp; right; apply Hspec|apply Hspec].
    - intros e He. apply Hsp in He as [[= ->]|He]; [congruence|]. by apply Hspec.
  Qed.

  Lemma cch_uparcs : uparcs n (up_tail c) (up_head c).
  Proof.
    destruct (wf_tails _ _ _ _ WF) as [Hl _]. split; [done| |].
    - intros i j t h t' h' Hij Hi Hi' Hj Hj'. assert (up_arc c i t h) as Ai by done. assert (up_arc c j t' h') as Aj by done.
      destruct (lt_eq_lt_dec t t') as [[?| ->]|Hlt]; [by left| |].
      + right. split; [done|]. by eapply (wf_upsorted _ _ _ _ WF).
      + pose proof (up_arc_tail_lt _ _ _ _ WF _ _ _ _ _ _ Aj Ai Hlt). lia.
    - intros t h (i & Hi & Hi'). destruct (up_arc_lt _ _ _ _ WF i t h) as (_ & ? & ?); [done|]. lia.
  Qed.

  (** One direction of the result. *)
  Lemma kept_side_spec k v : length k = length (up_head c) -> length v = length (up_head c) ->
    exists fo h x, kept_side c k v = Some (fo, h, x) /\ csr n fo h /\ length x = length h /\ length h = length (filter Is_true k) /\
      (forall a u y z, up_arc c a u y -> v !! a = Some z -> k !! a = Some true -> exists j, local_id k a = Some j /\ out_arc fo u j /\ h !! j = Some y /\ x !! j = Some z) /\
      forall j u y z, out_arc fo u j -> h !! j = Some y -> x !! j = Some z -> exists a, local_id k a = Some j /\ k !! a = Some true /\ up_arc c a u y /\ v !! a = Some z.
  Proof.
    intros Hk Hv. destruct (wf_tails _ _ _ _ WF) as [Hl _]. unfold kept_side, keep_element_of_vector_if.
    rewrite (inplace_filter_correct _ k (up_head c)) by done. rewrite bind_S. rewrite (inplace_filter_correct _ k (up_tail c)) by lia. rewrite bind_S.
    pose proof cch_uparcs as [U1 U2 U3].
    destruct (uparcs_index n (select (fun b => b) k (up_tail c)) (select (fun b => b) k (up_head c))) as (fo & Ef & Hc & Hout).
    { split; [by apply select_length|by apply select_lexlt|]. intros t h Ha. apply select_has_arc in Ha as (i & _ & Hi & Hi'); [|done]. apply U3. by exists i. }
    unfold c_node_count. rewrite (wf_n _ _ _ _ WF), Ef, bind_S. rewrite (inplace_filter_correct _ k v) by lia. rewrite bind_S.
    eexists _, _, _. split; [done|]. split; [done|]. split; [apply select_length; lia|]. split.
    { clear -Hk. revert Hk. generalize (up_head c). induction k as [|[] k IH]; intros [|x l] H; cbn [length select] in *; try done.
      - rewrite filter_cons_True by done. cbn [length]. f_equal. apply IH. lia.
      - rewrite filter_cons_False by (cbn; tauto). apply IH. lia. }
    split.
    - intros a u y z [Hu Hy] Hz Hka. destruct (select_local k _ _ _ Hka Hu) as (j & Hj & Hju), (select_local k _ _ _ Hka Hy) as (j' & Hj' & Hjy), (select_local k _ _ _ Hka Hz) as (j'' & Hj'' & Hjz).
      rewrite Hj in Hj', Hj''. injection Hj' as <-. injection Hj'' as <-. exists j. split; [done|]. split; [by apply Hout|done].
    - intros j u y z Hu Hy Hz. apply Hout in Hu. destruct (select_index _ _ _ _ Hu) as (a & Ka & Hua & La), (select_index _ _ _ _ Hy) as (a1 & _ & Hya & La1), (select_index _ _ _ _ Hz) as (a2 & _ & Hza & La2).
      assert (a1 = a) as -> by (by eapply local_id_inj). assert (a2 = a) as -> by (by eapply local_id_inj). by exists a.
  Qed.
End Input.

Section Extract.
  Context (n : nat) (rt rh : list nat) (c : cch) (WF : wf_cch n rt rh c).
  Context (w : list N) (m : metric) (CU : customized rt rh c w m) (Hlen : length w = length rt).
  Context (s : pstate) (HP : pinv rt rh c w m (fun _ _ _ => True) s).
  Context (Hch : forall x y z a b, up_arc c a x y -> up_arc c b x z -> y < z -> exists t, up_arc c t y z).

  Lemma s_dw d a : a < length (up_head c) -> exists y, dw (ps_m s) d a = Some y /\ (y <= inf_weight)%N.
  Proof. intros Ha. destruct (pi_dw _ _ _ _ _ CU _ _ d a HP Ha) as (x & y & _ & Hy & ? & ?). exists y. split; [done|lia]. Qed.
  Lemma s_kp d a : a < length (up_head c) -> exists b, kp s d !! a = Some b.
  Proof. intros Ha. apply lookup_lt_is_Some_2. by rewrite (proj2 (pi_len _ _ _ _ _ _ _ HP d)). Qed.

  (** A kept arc [a] that goes from [u] up to [v] (down from [v] to [u] unless [d]) and the entry that it gets. *)
  Definition good (d : bool) (u v : nat) (x : N) (o : bool) (p q : nat) : Prop :=
    if o then dir_arc rt rh d u v p /\ w !! p = Some x /\ c_order c !! (if d then v else u) = Some q
    else exists b f z x1 x2, up_arc c b z (if d then u else v) /\ up_arc c f z (if d then v else u) /\
      kp s false !! b = Some true /\ kp s true !! f = Some true /\ local_id (kp s false) b = Some p /\ local_id (kp s true) f = Some q /\
      dw (ps_m s) false b = Some x1 /\ dw (ps_m s) true f = Some x2 /\ x = (x1 + x2)%N.

  Lemma find_triangle_spec d a u v x : up_arc c a u v -> dw (ps_m s) d a = Some x -> kp s d !! a = Some true ->
    (forall e, dir_arc rt rh d u v e -> w !! e <> Some x) ->
    exists p q, find_triangle c s d a = Some (Some (p, q)) /\ good d u v x false p q.
  Proof.
    intros Ha Hx Hk Hno. destruct (lower_triangles_list n rt rh c WF u v a Ha) as (l & Hl & Hf).
    unfold find_triangle, forall_lower_triangles_of_arc. destruct Ha as [Hu Hv]. rewrite Hu, bind_S, Hv, bind_S, Hf. clear Hf.
    assert (up_arc c a u v) as Ha by done.
    pose (test := fun p : nat * nat * nat =>
      let back := if d then fst (fst p) else snd (fst p) in let forth := if d then snd (fst p) else fst (fst p) in
      k1 ← kp s false !! back; k2 ← kp s true !! forth; x1 ← dw (ps_m s) false back; x2 ← dw (ps_m s) true forth;
      Some (k1 && k2 && (x1 + x2 =? x)%N)).
    pose (g := fun p : nat * nat * nat =>
      let back := if d then fst (fst p) else snd (fst p) in let forth := if d then snd (fst p) else fst (fst p) in
      (default 0 (local_id (kp s false) back), default 0 (local_id (kp s true) forth))).
    match goal with |- context [for_until l ?f None] => destruct (for_until_find l test g f) as [[_ Hall]|([[b mi] z] & Hin & Ht & ->)] end.
    - intros [[b mi] z] r Hin. apply Hl in Hin as [Hb Hm]. destruct (up_arc_lt _ _ _ _ WF _ _ _ Hb) as (Lb & _ & _), (up_arc_lt _ _ _ _ WF _ _ _ Hm) as (Lm & _ & _).
      unfold test, g. cbv beta zeta. cbn [fst snd]. remember (if d then b else mi) as back eqn:Eb. remember (if d then mi else b) as forth eqn:Ef.
      assert (back < length (up_head c)) as Lback by (subst back; by destruct d). assert (forth < length (up_head c)) as Lforth by (subst forth; by destruct d).
      destruct (s_kp false back Lback) as [k1 K1], (s_kp true forth Lforth) as [k2 K2], (s_dw false back Lback) as (x1 & X1 & I1), (s_dw true forth Lforth) as (x2 & X2 & I2).
      rewrite K1, K2, X1, X2, !bind_S. eexists. split; [done|]. unfold kp, dw in K1, K2, X1, X2, Hx. unfold kp.
      rewrite ?K1, ?bind_S, ?K2, ?bind_S.
      destruct k1; cbn [andb]; [|done]. destruct k2; cbn [andb]; [|done].
      rewrite X1, bind_S, X2, bind_S. replace ((if d then m_fwd (ps_m s) else m_bwd (ps_m s)) !! a) with (Some x). rewrite bind_S.
      rewrite add32_id by done. destruct (N.eqb_spec (x1 + x2) x); [|done].
      destruct (local_id_lt _ _ K1) as (i & Hi & _), (local_id_lt _ _ K2) as (j & Hj & _). rewrite Hi, Hj, !bind_S. done.
    - exfalso. destruct (kept_entry n rt rh c WF w m CU s HP Hch d a u v x Ha Hx Hk) as [(e & He & Hwe)|(b & mi & p & q & (z & u' & v' & Hb & Hm & Ha') & Hp & Hq & Hsum & Kb & Km)].
      { by eapply Hno. }
      destruct (up_arc_fun c _ _ _ _ _ Ha Ha') as [<- <-]. specialize (Hall (b, mi, z) ltac:(by apply Hl)). unfold test in Hall. cbn [fst snd] in Hall. cbv zeta in Hall.
      destruct d; cbn [negb] in *.
      + rewrite Kb, Km, Hp, Hq, !bind_S in Hall. rewrite Hsum, N.eqb_refl in Hall. done.
      + rewrite Kb, Km, Hp, Hq, !bind_S in Hall. rewrite Hsum, N.add_comm, N.eqb_refl in Hall. done.
    - apply Hl in Hin as [Hb Hm]. rewrite bind_S. unfold test in Ht. cbn [fst snd] in Ht. cbv zeta in Ht. eexists _, _. split; [done|]. cbn [fst snd].
      destruct (up_arc_lt _ _ _ _ WF _ _ _ Hb) as (Lb & _ & _), (up_arc_lt _ _ _ _ WF _ _ _ Hm) as (Lm & _ & _).
      exists (if d then b else mi), (if d then mi else b), z.
      assert ((if d then b else mi) < length (up_head c)) as Lback by (by destruct d). assert ((if d then mi else b) < length (up_head c)) as Lforth by (by destruct d).
      destruct (s_kp false _ Lback) as [k1 K1], (s_kp true _ Lforth) as [k2 K2], (s_dw false _ Lback) as (x1 & X1 & I1), (s_dw true _ Lforth) as (x2 & X2 & I2).
      rewrite K1, K2, X1, X2, !bind_S in Ht. injection Ht as Ht. apply andb_true_iff in Ht as [[-> ->]%andb_true_iff Hs%N.eqb_eq].
      exists x1, x2. destruct (local_id_lt _ _ K1) as (i & Hi & _), (local_id_lt _ _ K2) as (j & Hj & _).
      split; [by destruct d|]. split; [by destruct d|]. split; [done|]. split; [done|].
      split; [by rewrite Hi|]. split; [by rewrite Hj|]. done.
  Qed.

  Context (Horder : length (c_order c) = n) (asserts : bool).
  Notation entries := (list bool * list nat * list nat)%type.
  Definition esize (d : bool) (e : entries) : Prop := let cnt := length (filter Is_true (kp s d)) in
    length (fst (fst e)) = cnt /\ length (snd (fst e)) = cnt /\ length (snd e) = cnt.
  Definition eat (e : entries) (j : nat) (o : bool) (p q : nat) : Prop :=
    fst (fst e) !! j = Some o /\ snd (fst e) !! j = Some p /\ snd e !! j = Some q.

  Lemma fill_entry_spec d a u v x e : up_arc c a u v -> dw (ps_m s) d a = Some x -> esize d e ->
    (forall j, local_id (kp s d) a = Some j -> fst (fst e) !! j = Some false) ->
    exists e', fill_entry asserts c w s d a e = Some e' /\ esize d e' /\
      (forall j, local_id (kp s d) a = Some j -> exists o p q, eat e' j o p q /\ good d u v x o p q) /\
      (forall j, local_id (kp s d) a <> Some j -> fst (fst e') !! j = fst (fst e) !! j /\ snd (fst e') !! j = snd (fst e) !! j /\ snd e' !! j = snd e !! j).
  Proof.
    intros Ha Hx Hsz Hfalse. destruct e as [[orig first] second]. unfold fill_entry. destruct Hsz as (S1 & S2 & S3). cbn [fst snd] in *.
    destruct (up_arc_lt _ _ _ _ WF _ _ _ Ha) as (La & Luv & Lv). change (if d then ps_kf s else ps_kb s) with (kp s d).
    destruct (s_kp d a La) as [k Hk]. cbv zeta. rewrite Hk, bind_S. destruct k; cbn [negb].
    2:{ eexists. split; [done|]. split; [done|]. split; [|done]. intros j Hj. apply local_id_set in Hj. congruence. }
    destruct (local_id_lt _ _ Hk) as (i & Hi & Li). rewrite Hi, bind_S. specialize (Hfalse i Hi).
    destruct (unpack_original_total n rt rh c WF w Hlen (ps_m s) d a u v x Ha Hx) as (o & -> & Ho). rewrite bind_S.
    destruct o as [e|].
    - destruct Ho as [He Hwe]. destruct Ha as [Hu Hv].
      assert ((if d then up_head c else up_tail c) !! a = Some (if d then v else u)) as Hend by (by destruct d). rewrite Hend, bind_S.
      destruct (lookup_lt_is_Some_2 (c_order c) (if d then v else u)) as [y Hy]; [rewrite Horder; destruct d; lia|]. rewrite Hy, bind_S.
      rewrite (wr_Some orig) by lia. rewrite bind_S. rewrite (wr_Some first) by lia. rewrite bind_S. rewrite (wr_Some second) by lia. rewrite bind_S.
      eexists. split; [done|]. split; [unfold esize; cbn [fst snd]; rewrite !insert_length; done|]. split.
      + intros j [= <-]. exists true, e, y. unfold eat. cbn [fst snd]. rewrite !list_lookup_insert by lia. done.
      + intros j Hj. cbn [fst snd]. rewrite !list_lookup_insert_ne by congruence. done.
    - destruct (find_triangle_spec d a u v x Ha Hx Hk Ho) as (p & q & -> & Hg). rewrite bind_S. cbv iota beta.
      rewrite (wr_Some first) by lia. rewrite bind_S. rewrite (wr_Some second) by lia. rewrite bind_S.
      eexists. split; [done|]. split; [unfold esize; cbn [fst snd]; rewrite !insert_length; done|]. split.
      + intros j [= <-]. exists false, p, q. unfold eat. cbn [fst snd]. rewrite !list_lookup_insert by lia. done.
      + intros j Hj. cbn [fst snd]. rewrite !list_lookup_insert_ne by congruence. done.
  Qed.

  (** The entries of all kept arcs below [i] are filled. *)
  Definition filled (i : nat) (d : bool) (e : entries) : Prop :=
    esize d e /\
    (forall a u v x j, a < i -> up_arc c a u v -> dw (ps_m s) d a = Some x -> local_id (kp s d) a = Some j -> exists o p q, eat e j o p q /\ good d u v x o p q) /\
    (forall a j, i <= a -> local_id (kp s d) a = Some j -> fst (fst e) !! j = Some false).
  Lemma filled_step i d e : i < length (up_head c) -> filled i d e -> exists e', fill_entry asserts c w s d i e = Some e' /\ filled (S i) d e'.
  Proof.
    intros Hi (Hsz & H1 & H2). destruct (up_arc_exists _ _ _ _ WF i Hi) as (u & v & Ha). destruct (s_dw d i Hi) as (x & Hx & _).
    destruct (fill_entry_spec d i u v x e Ha Hx Hsz) as (e' & He & Hsz' & H3 & H4); [intros j Hj; eapply H2; [|done]; lia|].
    exists e'. split; [done|]. split; [done|]. split.
    - intros a u' v' x' j Hlt Ha' Hx' Hj. destruct (decide (a = i)) as [->|Hne].
      + destruct (up_arc_fun c _ _ _ _ _ Ha Ha') as [<- <-]. rewrite Hx in Hx'. injection Hx' as <-. by apply H3.
      + destruct (H1 a u' v' x' j) as (o & p & q & (E1 & E2 & E3) & Hg); [lia|done..|]. exists o, p, q. split; [|done].
        destruct (H4 j) as (F1 & F2 & F3); [intros Hj'; destruct Hne; by eapply local_id_inj|]. unfold eat. by rewrite F1, F2, F3.
    - intros a j Hlt Hj. destruct (H4 j) as (-> & _ & _); [intros Hj'; assert (a = i) by (by eapply local_id_inj); lia|]. eapply H2; [|done]. lia.
  Qed.

  (** The whole result. *)
  Lemma extract_ch_spec : exists h, extract_ch asserts c w s = Some h /\ ch_rank h = c_rank c /\ ch_order h = c_order c /\
    forall d : bool, let sd := if d then ch_fwd h else ch_bwd h in
      csr n (cs_first_out sd) (cs_head sd) /\ length (cs_weight sd) = length (cs_head sd) /\ length (cs_orig sd) = length (cs_head sd) /\
      length (cs_first sd) = length (cs_head sd) /\ length (cs_second sd) = length (cs_head sd) /\
      (forall a u v x, up_arc c a u v -> dw (ps_m s) d a = Some x -> kp s d !! a = Some true ->
         exists j, local_id (kp s d) a = Some j /\ sarc sd j u v x) /\
      (forall j u v x, sarc sd j u v x -> exists a, local_id (kp s d) a = Some j /\ kp s d !! a = Some true /\ up_arc c a u v /\ dw (ps_m s) d a = Some x) /\
      (forall j u v x, sarc sd j u v x -> exists o p q, side_entry sd j o p q /\ good d u v x o p q).
  Proof.
    unfold extract_ch. destruct (pi_len _ _ _ _ _ _ _ HP true) as [L1 L2], (pi_len _ _ _ _ _ _ _ HP false) as [L3 L4].
    destruct (kept_side_spec n rt rh c WF w Hlen (kp s true) (mw (ps_m s) true) L2 L1) as (ff & fh & fw & Ef & Cf & Wf & Nf & F1 & F2).
    destruct (kept_side_spec n rt rh c WF w Hlen (kp s false) (mw (ps_m s) false) L4 L3) as (bf & bh & bw & Eb & Cb & Wb & Nb & B1 & B2).
    change (ps_kf s) with (kp s true) in *. change (ps_kb s) with (kp s false) in *. change (m_fwd (ps_m s)) with (mw (ps_m s) true) in *. change (m_bwd (ps_m s)) with (mw (ps_m s) false) in *.
    rewrite Ef, bind_S, Eb, bind_S. cbv beta iota.
    destruct (for_range_inv (fun i e => filled i true (fst e) /\ filled i false (snd e))
      (fun a '(ef, eb) => ef ← fill_entry asserts c w s true a ef; eb ← fill_entry asserts c w s false a eb; Some (ef, eb)) 0 (c_arc_count c)
      (empty_entries (kp s true) fh, empty_entries (kp s false) bh)) as ([[[fo f1] f2] [[bo b1] b2]] & -> & Hf & Hb); [lia| | |].
    - assert (forall d h, length h = length (filter Is_true (kp s d)) -> filled 0 d (empty_entries (kp s d) h)) as He.
      { intros d h Hh. unfold filled, empty_entries, esize. cbn [fst snd]. rewrite !replicate_length. split; [done|]. split; [lia|].
        intros a j _ Hj. apply lookup_replicate_2. rewrite Hh. pose proof (local_id_set _ _ _ Hj) as Hk. destruct (local_id_lt _ _ Hk) as (j' & Hj' & Lj). rewrite Hj in Hj'. by injection Hj' as <-. }
      split; by apply He.
    - intros i [ef eb] Hi [Hf Hb]. cbn [fst snd] in *. unfold c_arc_count in Hi. destruct (filled_step i true ef) as (ef' & -> & Hf'); [lia|done|].
      destruct (filled_step i false eb) as (eb' & -> & Hb'); [lia|done|]. rewrite !bind_S. eexists. done.
    - rewrite bind_S. cbv beta iota. cbn [fst snd] in *. eexists. split; [done|]. split; [done|]. split; [done|].
      destruct Hf as ((S1 & S2 & S3) & Hf & _), Hb as ((T1 & T2 & T3) & Hb & _). cbn [fst snd] in *.
      intros []; cbv zeta; cbn [ch_fwd ch_bwd cs_first_out cs_head cs_weight cs_orig cs_first cs_second].
      + do 5 (split; [done || lia|]). assert (forall j u v x, sarc (mkChside ff fh fw fo f1 f2) j u v x -> exists a, local_id (kp s true) a = Some j /\ kp s true !! a = Some true /\ up_arc c a u v /\ dw (ps_m s) true a = Some x) as HF.
        { intros j u v x (H1 & H2 & H3). cbn in H1, H2, H3. destruct (F2 j u v x H1 H2 H3) as (a & ? & ? & ? & ?). by exists a. }
        split; [|split; [done|]].
        * intros a u v x Ha Hx Hk. destruct (F1 a u v x Ha Hx Hk) as (j & ? & ? & ? & ?). by exists j.
        * intros j u v x Hs. destruct (HF _ _ _ _ Hs) as (a & Hj & Hk & Ha & Hx). destruct (up_arc_lt _ _ _ _ WF _ _ _ Ha) as (La & _).
          destruct (Hf a u v x j La Ha Hx Hj) as (o & p & q & He & Hg). by exists o, p, q.
      + do 5 (split; [done || lia|]). assert (forall j u v x, sarc (mkChside bf bh bw bo b1 b2) j u v x -> exists a, local_id (kp s false) a = Some j /\ kp s false !! a = Some true /\ up_arc c a u v /\ dw (ps_m s) false a = Some x) as HF.
        { intros j u v x (H1 & H2 & H3). cbn in H1, H2, H3. destruct (B2 j u v x H1 H2 H3) as (a & ? & ? & ? & ?). by exists a. }
        split; [|split; [done|]].
        * intros a u v x Ha Hx Hk. destruct (B1 a u v x Ha Hx Hk) as (j & ? & ? & ? & ?). by exists j.
        * intros j u v x Hs. destruct (HF _ _ _ _ Hs) as (a & Hj & Hk & Ha & Hx). destruct (up_arc_lt _ _ _ _ WF _ _ _ Ha) as (La & _).
          destruct (Hb a u v x j La Ha Hx Hj) as (o & p & q & He & Hg). by exists o, p, q.
  Qed.
End Extract.
