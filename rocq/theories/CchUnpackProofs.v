(** Unpacking of CCH paths. *)
From Verif Require Import Base GraphSpec PathSpec WalkSpec CchModel CchSpec CchCustomizeProofs CchTriangleProofs CchQueryProofs GraphUtilModel GraphUtilProofs.
Ltac Zify.zify_post_hook ::= idtac.

Section Unpack.
  Context (n : nat) (rt rh : list nat) (c : cch) (WF : wf_cch n rt rh c).
  Context (w : list N) (m : metric) (CU : customized rt rh c w m).
  Context (Hlen : length w = length rt) (Hw : forall e x, w !! e = Some x -> (x <= inf_weight)%N).

  (** The segments (node, arc, direction) form a walk from [u] to [v] of length [L]; an
      input arc of the same weight runs along each of them. *)
  Inductive segs_ok : nat -> list (nat * nat * bool) -> nat -> N -> Prop :=
    | segs_nil u : segs_ok u [] u 0
    | segs_cons u a (f : bool) u' x e r v L :
        (if f then up_arc c a u u' else up_arc c a u' u) -> dw m f a = Some x ->
        rt !! e = Some u -> rh !! e = Some u' -> w !! e = Some x ->
        segs_ok u' r v L -> segs_ok u ((u, a, f) :: r) v (x + L)%N.

  Lemma segs_app u r v L r' v' L' : segs_ok u r v L -> segs_ok v r' v' L' -> segs_ok u (r ++ r') v' (L + L')%N.
  Proof.
    induction 1; intros; [done|]. cbn. rewrite <- N.add_assoc. econstructor; eauto.
  Qed.

  Lemma unpack_arc_spec fuel : forall d x y a v,
    x < fuel -> up_arc c a x y -> dw m d a = Some v -> (v < inf_weight)%N ->
    exists r, unpack_arc c m fuel d x y a = Some r /\
      (if d then segs_ok x r y v else segs_ok y r x v).
  Proof.
    induction fuel as [|fuel IH]; intros d x y a v Hf Ha Hv Hvi; [lia|]. cbn [unpack_arc].
    pose proof (up_arc_lt _ _ _ _ WF _ _ _ Ha) as Hlt.
    destruct Ha as [Ht Hh]. rewrite Ht. bs. rewrite Hh. bs. rewrite bool_decide_eq_true_2 by done. cbn [chk]. bs.
    assert (up_arc c a x y) as Ha by done.
    destruct (lower_triangles_list _ _ _ _ WF x y a Ha) as (l & Hl & Hrun). rewrite Hrun.
    destruct (cu_dw _ _ _ _ _ CU (negb d) a) as (v' & Hv' & Hvi'); [lia|].
    match goal with |- context [for_until l ?body None] =>
      destruct (for_until_find l
        (fun p => pb ← dw m (negb d) (fst (fst p)); pm ← dw m d (snd (fst p)); Some (N.eqb v (add32 pb pm)))
        (fun p => (snd p, fst (fst p), snd (fst p))) body) as [[Hres Hall]|(p & Hp & Htest & Hres)] end.
    { intros [[b mi] z] s Hin. apply Hl in Hin as [Hb Hm]. cbn [fst snd].
      pose proof (up_arc_lt _ _ _ _ WF _ _ _ Hb). pose proof (up_arc_lt _ _ _ _ WF _ _ _ Hm).
      destruct (cu_dw _ _ _ _ _ CU true b) as (fb & Hfb & ?); [lia|]. destruct (cu_dw _ _ _ _ _ CU false b) as (bb & Hbb & ?); [lia|].
      destruct (cu_dw _ _ _ _ _ CU true mi) as (fm & Hfm & ?); [lia|]. destruct (cu_dw _ _ _ _ _ CU false mi) as (bm & Hbm & ?); [lia|].
      unfold dw in Hv, Hv', Hfb, Hbb, Hfm, Hbm. cbn [negb] in *.
      destruct d; cbn [negb] in *; unfold dw; cbv iota; eexists.
      - rewrite Hbb, Hfm. bs. split; [done|]. rewrite Hv. bs. rewrite Hv'. bs. rewrite Hfb. bs. rewrite Hbm. bs.
        by destruct (v =? add32 bb fm)%N.
      - rewrite Hfb, Hbm. bs. split; [done|]. rewrite Hv'. bs. rewrite Hv. bs. rewrite Hbb. bs. rewrite Hfm. bs.
        by destruct (v =? add32 fb bm)%N. }
    - rewrite Hres. bs. cbv iota. eexists. split; [done|].
      destruct (cu_tight _ _ _ _ _ CU _ _ _ _ _ Ha Hv) as [->|[(e & He & Hwe)|(b & mi & p & q & Htri & Hp & Hq & Hpq)]]; [lia| |].
      + destruct d, He as [He1 He2]; rewrite <- (N.add_0_r v); (econstructor; [|done..|constructor]); done.
      + exfalso. destruct Htri as (z & x' & y' & Hb & Hm & Ha'). destruct (up_arc_fun _ _ _ _ _ _ Ha' Ha) as [-> ->].
        assert ((b, mi, z) ∈ l) as Hin by (by apply Hl). specialize (Hall _ Hin). cbn [fst snd] in Hall.
        rewrite Hp in Hall. bs. rewrite Hq in Hall. bs. injection Hall as Hall.
        rewrite add32_le in Hall by lia. apply N.eqb_neq in Hall. done.
    - rewrite Hres. bs. cbv iota. destruct p as [[b mi] z]. cbn [fst snd] in *. cbv iota.
      apply Hl in Hp as [Hb Hm]. pose proof (up_arc_lt _ _ _ _ WF _ _ _ Hb). pose proof (up_arc_lt _ _ _ _ WF _ _ _ Hm).
      destruct (cu_dw _ _ _ _ _ CU (negb d) b) as (vb & Hvb & ?); [lia|].
      destruct (cu_dw _ _ _ _ _ CU d mi) as (vm & Hvm & ?); [lia|].
      rewrite Hvb in Htest. bs. rewrite Hvm in Htest. bs. injection Htest as Htest.
      rewrite add32_le in Htest by done. apply N.eqb_eq in Htest.
      destruct (IH (negb d) z x b vb) as (r1 & Hr1 & Hs1); [lia|done|done|lia|].
      destruct (IH d z y mi vm) as (r2 & Hr2 & Hs2); [lia|done|done|lia|].
      destruct d; cbn [negb] in *.
      + rewrite Hr1. bs. rewrite Hr2. bs. eexists. split; [done|]. rewrite Htest. by eapply segs_app.
      + rewrite Hr2. bs. rewrite Hr1. bs. eexists. split; [done|]. rewrite Htest, N.add_comm. by eapply segs_app.
  Qed.

  (** up arcs are found *)
  Lemma find_up_arc a x y : up_arc c a x y -> find_arc_given_sorted_head (up_first_out c) (up_head c) x y = Some a.
  Proof.
    intros Ha. pose proof (up_arc_lt _ _ _ _ WF _ _ _ Ha) as Hlt.
    assert (heads_sorted (up_first_out c) (up_head c)) as Hs.
    { intros u e e' p q He He' Hle Hp Hq. destruct (decide (e = e')) as [->|]; [simplify_eq; done|].
      assert (p < q); [|lia]. eapply (wf_upsorted _ _ _ _ WF e e' u); [by apply (up_arc_out _ _ _ _ WF)|by apply (up_arc_out _ _ _ _ WF)|lia]. }
    destruct (find_arc_or_return_invalid_correct n (up_first_out c) (up_head c) x y (wf_up _ _ _ _ WF)) as (r & Hr & Hspec); [lia|lia|].
    unfold find_arc_given_sorted_head.
    rewrite (find_arc_given_sorted_head_correct n _ _ x y (wf_up _ _ _ _ WF) Hs), Hr by lia. bs.
    destruct r as [b|].
    - destruct Hspec as [[Ho Hh] _]. f_equal. eapply (up_arc_unique _ _ _ _ WF); [|exact Ha].
      by apply (up_arc_out _ _ _ _ WF).
    - exfalso. eapply Hspec. apply (up_arc_out _ _ _ _ WF) in Ha as [Ho Hh]. by split.
  Qed.

  Lemma unpack_up_spec l L y s : upath c (m_fwd m) l L -> head l = Some y -> list.last l = Some s -> (L < inf_weight)%N ->
    exists r, unpack_up c m l = Some r /\ segs_ok s r y L.
  Proof.
    intros H. revert y. induction H as [s'|y' x r L wt (a & Ha & Hwt) H IH]; intros y Hy Hs HL.
    - cbn in Hy, Hs. simplify_eq. exists []. split; [done|constructor].
    - injection Hy as ->. destruct (IH x) as (r1 & Hr1 & Hs1); [done|done|lia|].
      change (unpack_up c m (y :: x :: r)) with (r ← unpack_up c m (x :: r);
        xy ← find_arc_given_sorted_head (up_first_out c) (up_head c) x y;
        s ← unpack_arc c m (c_node_count c) true x y xy; Some (r ++ s)).
      rewrite Hr1. bs. rewrite (find_up_arc _ _ _ Ha). bs.
      destruct (unpack_arc_spec (c_node_count c) true x y a wt) as (r2 & Hr2 & Hs2); [|done|done|lia|].
      { unfold c_node_count. rewrite (wf_n _ _ _ _ WF). apply (up_arc_lt _ _ _ _ WF) in Ha. lia. }
      rewrite Hr2. bs. eexists. split; [done|]. by eapply segs_app.
  Qed.
  Lemma unpack_down_spec l L y s : upath c (m_bwd m) l L -> head l = Some y -> list.last l = Some s -> (L < inf_weight)%N ->
    exists r, unpack_down c m l = Some r /\ segs_ok y r s L.
  Proof.
    intros H. revert y. induction H as [s'|y' x r L wt (a & Ha & Hwt) H IH]; intros y Hy Hs HL.
    - cbn in Hy, Hs. simplify_eq. exists []. split; [done|constructor].
    - injection Hy as ->. destruct (IH x) as (r1 & Hr1 & Hs1); [done|done|lia|].
      change (unpack_down c m (y :: x :: r)) with (
        xy ← find_arc_given_sorted_head (up_first_out c) (up_head c) x y;
        s ← unpack_arc c m (c_node_count c) false x y xy; r ← unpack_down c m (x :: r); Some (s ++ r)).
      rewrite (find_up_arc _ _ _ Ha). bs.
      destruct (unpack_arc_spec (c_node_count c) false x y a wt) as (r2 & Hr2 & Hs2); [|done|done|lia|].
      { unfold c_node_count. rewrite (wf_n _ _ _ _ WF). apply (up_arc_lt _ _ _ _ WF) in Ha. lia. }
      rewrite Hr2. bs. rewrite Hr1. bs. eexists. split; [done|]. rewrite N.add_comm. by eapply segs_app.
  Qed.

  (** ** Input arcs *)
  Lemma find_extra_spec extra l v cnt j :
    mapM (fun k => extra !! k) (seq j cnt) = Some l -> Forall (fun e => is_Some (w !! e)) l ->
    exists o, find_extra extra w v cnt j = Some o /\
      match o with Some e => e ∈ l /\ w !! e = Some v | None => forall e, e ∈ l -> w !! e <> Some v end.
  Proof.
    revert j l. induction cnt as [|cnt IH]; intros j l Hl Hall; cbn [seq mapM] in Hl.
    - injection Hl as <-. exists None. split; [done|]. by intros e ?%elem_of_nil.
    - destruct (extra !! j) as [e|] eqn:He; [|done]. bs.
      destruct (mapM (fun k => extra !! k) (seq (S j) cnt)) as [l'|] eqn:Hl'; [|done]. bs. injection Hl as <-.
      apply Forall_cons in Hall as [[x Hx] Hall]. cbn [find_extra]. rewrite He. bs. rewrite Hx. bs.
      destruct (N.eqb_spec v x) as [->|Hne].
      + exists (Some e). split; [done|]. split; [constructor|done].
      + destruct (IH (S j) l' Hl' Hall) as (o & Ho & Hspec). exists o. split; [done|].
        destruct o as [e'|]; [split; [by constructor; apply Hspec|apply Hspec]|].
        intros e' [->|He']%elem_of_cons; [congruence|by apply Hspec].
  Qed.

  Lemma unpack_original_spec d a u v x e :
    up_arc c a u v -> dw m d a = Some x -> dir_arc rt rh d u v e -> w !! e = Some x ->
    exists e', unpack_original c w d m a = Some (Some e') /\ dir_arc rt rh d u v e' /\ w !! e' = Some x.
  Proof.
    intros Ha Hx He Hwe. destruct (wf_inputs _ _ _ _ WF d _ _ _ Ha) as (o & l & Hin & Hnone & Hsp).
    assert (forall e', o = Some e' \/ e' ∈ l -> is_Some (w !! e')) as Hsome.
    { intros e' He'%Hsp. apply lookup_lt_is_Some_2. rewrite Hlen.
      destruct (wf_ends _ _ _ _ WF) as (Hl & _). destruct d, He' as [H1 H2]; [by eapply lookup_lt_Some|].
      by eapply lookup_lt_Some. }
    unfold unpack_original. unfold arc_inputs in Hin.
    destruct (has_input c !! a) as [h|]; [|done]. bs. destruct h; cbn [negb] in *.
    2:{ simplify_eq. exfalso. apply Hsp in He as [?|?%elem_of_nil]; done. }
    destruct (local_id (has_input c) a) as [i|]; [|done]. bs.
    destruct ((if d then fwd_input c else bwd_input c) !! i) as [o'|] eqn:Ho; [|done]. bs.
    destruct (has_extra c !! a) as [h|] eqn:Hh; [|done]. bs.
    assert (o' = o) as ->.
    { destruct h; cbn [negb] in Hin; [|by simplify_eq].
      repeat match type of Hin with (?x ≫= _) = _ => destruct x; [rewrite bind_S in Hin|done] end. by simplify_eq. }
    destruct o as [e0|].
    2:{ exfalso. rewrite Hnone in Hsp by done. apply Hsp in He as [?|?%elem_of_nil]; done. }
    replace ((if d then m_fwd m else m_bwd m) !! a) with (Some x) by (by rewrite <- Hx; unfold dw). bs.
    destruct (Hsome e0) as [x0 Hx0]; [by left|]. rewrite Hx0. bs.
    destruct (N.eqb_spec x x0) as [->|Hne].
    { exists e0. split; [done|]. split; [|done]. apply Hsp. by left. }
    destruct h; cbn [negb] in *.
    2:{ simplify_eq. exfalso. apply Hsp in He as [[= ->]|?%elem_of_nil]; [congruence|done]. }
    destruct (local_id (has_extra c) a) as [j|]; [|done]. bs.
    destruct ((if d then first_extra_fwd c else first_extra_bwd c) !! j) as [lo|] eqn:Hlo; [|done]. bs.
    destruct ((if d then first_extra_fwd c else first_extra_bwd c) !! S j) as [hi|] eqn:Hhi; [|done]. bs.
    destruct (mapM (fun k => (if d then extra_fwd c else extra_bwd c) !! k) (seq lo (hi - lo))) as [l'|] eqn:Hl; [|done]. bs. simplify_eq.
    destruct (find_extra_spec _ _ x _ _ Hl) as (o & Hr & Hspec).
    { apply Forall_forall. intros. apply Hsome. by right. }
    rewrite Hr. destruct o as [e'|].
    - exists e'. split; [done|]. split; [apply Hsp; right; apply Hspec|apply Hspec].
    - exfalso. apply Hsp in He as [[= ->]|He]; [congruence|]. by eapply Hspec.
  Qed.

  (** The arcs of a list of segments. *)
  Lemma segs_arcs u r v L : segs_ok u r v L ->
    exists p, mapM (fun s => o ← unpack_original c w (snd s) m (snd (fst s)); o) r = Some p /\
      awalk rt rh u p v /\ total w p = L.
  Proof.
    induction 1 as [u|u a f u' x e r v L Ha Hx Ht Hh Hwe _ (p & Hp & Hpw & Ht')].
    - exists []. split; [done|]. split; [constructor|done].
    - assert (exists e', unpack_original c w f m a = Some (Some e') /\ rt !! e' = Some u /\ rh !! e' = Some u' /\ w !! e' = Some x) as (e' & Hu & ? & ? & ?).
      { destruct f.
        - destruct (unpack_original_spec true a u u' x e) as (e' & ? & [? ?] & ?); [done..|]. by exists e'.
        - destruct (unpack_original_spec false a u' u x e) as (e' & ? & [? ?] & ?); [done..|]. by exists e'. }
      exists (e' :: p). cbn [mapM fst snd]. rewrite Hu. bs. rewrite Hp. bs. split; [done|]. split; [by econstructor|].
      change (total w (e' :: p)) with (default 0%N (w !! e') + total w p)%N. rewrite H1. cbn. by rewrite Ht'.
  Qed.
  (** The nodes of the same walk, without the last. *)
  Lemma segs_nodes u r v L p : segs_ok u r v L ->
    mapM (fun s => o ← unpack_original c w (snd s) m (snd (fst s)); o) r = Some p ->
    mapM (fun e => rt !! e) p = Some ((fun s : nat * nat * bool => fst (fst s)) <$> r).
  Proof.
    intros H. revert p. induction H as [u|u a f u' x e r v L Ha Hx Ht Hh Hwe _ IH]; intros p Hp.
    - injection Hp as <-. done.
    - cbn [mapM fst snd] in Hp.
      assert (exists e', unpack_original c w f m a = Some (Some e') /\ rt !! e' = Some u) as (e' & Hu & Hr).
      { destruct f.
        - destruct (unpack_original_spec true a u u' x e) as (e' & ? & [? ?] & ?); [done..|]. by exists e'.
        - destruct (unpack_original_spec false a u' u x e) as (e' & ? & [? ?] & ?); [done..|]. by exists e'. }
      rewrite Hu in Hp. bs.
      destruct (mapM (fun s => o ← unpack_original c w (snd s) m (snd (fst s)); o) r) as [p'|] eqn:E; [|done]. bs.
      injection Hp as <-. cbn [mapM]. rewrite Hr. bs. rewrite (IH _ eq_refl). bs. done.
  Qed.
End Unpack.
