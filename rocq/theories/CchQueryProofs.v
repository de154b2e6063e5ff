(** CCH queries: search spaces, upward relaxation, meeting node, distances. *)
From Verif Require Import Base GraphSpec PathSpec WalkSpec CchModel CchSpec CchCustomizeProofs.
Ltac Zify.zify_post_hook ::= idtac.

(** ** Pieces of the elimination tree *)

(** [l] are the nodes from [x] up to but not including [e]. *)
Inductive chain (parent : list (option nat)) : option nat -> option nat -> list nat -> Prop :=
  | chain_nil e : chain parent e e []
  | chain_cons x p e l : Some x <> e -> parent !! x = Some p -> chain parent p e l -> chain parent (Some x) e (x :: l).

(** Every node is listed once and before its parent. *)
Inductive ord_ok (parent : list (option nat)) : list nat -> Prop :=
  | ord_nil : ord_ok parent []
  | ord_cons x p l : x ∉ l -> parent !! x = Some p -> (forall y, p = Some y -> y ∈ l) -> ord_ok parent l -> ord_ok parent (x :: l).

(** Value of a tentative distance. *)
Definition tv (t : list N) (y : nat) : N := default inf_weight (t !! y).

Lemma tv_lookup t y x : t !! y = Some x -> tv t y = x.
Proof. unfold tv. by intros ->. Qed.
Lemma tv_Some t y : y < length t -> t !! y = Some (tv t y).
Proof. intros H. unfold tv. by destruct (lookup_lt_is_Some_2 t y H) as [x ->]. Qed.
Lemma tv_insert t y x z : y < length t -> tv (<[y := x]> t) z = if decide (y = z) then x else tv t z.
Proof.
  intros H. unfold tv. destruct (decide (y = z)) as [->|]; [by rewrite list_lookup_insert|by rewrite list_lookup_insert_ne].
Qed.
Lemma tv_lt t y : (tv t y < inf_weight)%N -> y < length t.
Proof.
  intros H. destruct (decide (y < length t)); [done|]. unfold tv in H. rewrite lookup_ge_None_2 in H by lia. cbn in H. lia.
Qed.
Lemma tv_le t : Forall (fun x => (x <= inf_weight)%N) t -> forall y, (tv t y <= inf_weight)%N.
Proof.
  intros H y. unfold tv. destruct (t !! y) as [x|] eqn:E; cbn; [|done]. by eapply Forall_lookup_1 in H; [|exact E].
Qed.
Lemma for_each_app {A S} (l k : list A) (f : A -> S -> option S) s :
  for_each (l ++ k) f s = (s ← for_each l f s; for_each k f s).
Proof. revert s. induction l as [|x l IH]; intros s; [done|]. cbn [app for_each]. destruct (f x s); cbn; [apply IH|done]. Qed.
Lemma for_each_ext {A S} (l : list A) (f g : A -> S -> option S) s :
  (forall x s, x ∈ l -> f x s = g x s) -> for_each l f s = for_each l g s.
Proof.
  revert s. induction l as [|x l IH]; intros s H; [done|]. cbn [for_each]. rewrite H by constructor.
  destruct (g x s); cbn; [|done]. apply IH. intros. apply H. by constructor.
Qed.

Lemma forall_ancestors_chain {St} parent (g : nat -> St -> option St) x e l fuel st :
  chain parent x e l -> length l <= fuel ->
  forall_ancestors parent (fun x st => st ← g x st; Some (st, true)) fuel x e st = for_each l g st.
Proof.
  intros H. revert fuel st. induction H as [e|x p e l Hne Hp _ IH]; intros fuel st Hf.
  - destruct fuel; cbn [forall_ancestors]; by rewrite decide_True.
  - destruct fuel as [|fuel]; cbn [length] in Hf; [lia|]. cbn [forall_ancestors for_each].
    rewrite decide_False by done. bs. rewrite Hp. bs.
    destruct (g x st) as [st'|]; [|done]. bs. cbv iota. apply IH. lia.
Qed.

Lemma ord_suffix parent l k : ord_ok parent (l ++ k) -> ord_ok parent k.
Proof. induction l as [|x l IH]; [done|]. intros H. inversion H; auto. Qed.
Lemma ord_nodup parent l : ord_ok parent l -> NoDup l.
Proof. induction 1; by constructor. Qed.
Lemma ord_anc parent l x y : ord_ok parent l -> x ∈ l -> ancestor parent x y -> y ∈ l.
Proof.
  intros Hl Hx H. revert Hx. induction H as [x|x p y Hp _ IH]; intros Hx; [done|]. apply IH. clear IH.
  induction Hl as [|z q l Hz Hq Hin Hl IH]; [by apply elem_of_nil in Hx|].
  apply elem_of_cons in Hx as [->|Hx]; constructor; [|by auto]. simplify_eq. auto.
Qed.
Lemma ord_later parent l x y : ord_ok parent (x :: l) -> ancestor parent x y -> x <> y -> y ∈ l.
Proof.
  intros Hl H Hne. destruct H as [|x p y Hp H]; [done|]. inversion Hl as [|? ? ? Hx Hp' Hin Hl']; simplify_eq.
  eapply ord_anc; [exact Hl'|by apply Hin|done].
Qed.

Section Tree.
  Context (n : nat) (parent : list (option nat)) (Hn : length parent = n).
  Context (Hpar : forall x p, parent !! x = Some (Some p) -> x < p < n).

  Lemma chain_len x e l : chain parent (Some x) e l -> x <= n -> length l + x <= n.
  Proof.
    revert x. induction l as [|y l IH]; intros x H Hx; inversion H as [|? p ? ? Hne Hp Hc]; simplify_eq; cbn [length]; [lia|].
    destruct p as [p|].
    - pose proof (Hpar _ _ Hp). specialize (IH _ Hc). lia.
    - inversion Hc; simplify_eq. cbn. apply lookup_lt_Some in Hp. lia.
  Qed.
  Lemma chain_ge x e l y : chain parent (Some x) e l -> y ∈ l -> x <= y /\ y < n.
  Proof.
    revert x. induction l as [|z l IH]; intros x H Hy; [by apply elem_of_nil in Hy|].
    inversion H as [|? p ? ? Hne Hp Hc]; simplify_eq.
    apply elem_of_cons in Hy as [->|Hy]; [apply lookup_lt_Some in Hp; lia|].
    destruct p as [p|]; [|inversion Hc; simplify_eq; by apply elem_of_nil in Hy].
    pose proof (Hpar _ _ Hp). specialize (IH _ Hc Hy). lia.
  Qed.
  Lemma ancestor_le x y : ancestor parent x y -> x <= y.
  Proof. induction 1 as [|x p y Hp _ IH]; [done|]. pose proof (Hpar _ _ Hp). lia. Qed.

  (** Marking a new path. *)
  Definition mark (y : nat) (st : list bool * option nat) : option ((list bool * option nat) * bool) :=
    let '(ins, e) := st in
    b ← ins !! y;
    if negb b then ins ← wr ins y true; Some ((ins, e), true) else Some ((ins, Some y), false).

  Lemma mark_spec (l J : list nat) fuel x ins :
    x < n -> n <= x + fuel -> length ins = n -> ord_ok parent l ->
    (forall y, ins !! y = Some true <-> y ∈ l \/ y ∈ J) -> (forall y, y ∈ J -> y < x) ->
    exists ins' e k, forall_ancestors parent mark fuel (Some x) None (ins, None) = Some (ins', e) /\
      length ins' = n /\ chain parent (Some x) e k /\ ord_ok parent (k ++ l) /\ x ∈ k ++ l /\
      (forall y, ins' !! y = Some true <-> y ∈ k ++ l \/ y ∈ J) /\ (forall y, e = Some y -> x <= y).
  Proof.
    revert x ins J. induction fuel as [|fuel IH]; intros x ins J Hx Hf Hlen Hl Hins HJ; [lia|].
    cbn [forall_ancestors]. rewrite decide_False by done. bs.
    destruct (lookup_lt_is_Some_2 parent x) as [p Hp]; [lia|]. rewrite Hp. bs.
    destruct (lookup_lt_is_Some_2 ins x) as [b Hb]; [lia|].
    assert (mark x (ins, None) = Some (if b then ((ins, Some x), false) else ((<[x := true]> ins, None), true))) as Hm.
    { unfold mark. rewrite Hb. bs. destruct b; cbn [negb]; [done|]. rewrite wr_Some by lia. done. }
    rewrite Hm. bs. destruct b.
    - cbv iota. exists ins, (Some x), []. split; [done|]. split; [done|]. split; [constructor|]. split; [done|].
      apply Hins in Hb as [Hb|Hb]; [|specialize (HJ _ Hb); lia]. split; [done|]. split; [done|]. naive_solver.
    - cbv iota.
      assert (x ∉ l) as Hxl. { intros Hin. assert (ins !! x = Some true) by (apply Hins; by left). congruence. }
      assert (forall y, <[x := true]> ins !! y = Some true <-> y ∈ l \/ y ∈ x :: J) as Hins'.
      { intros y. destruct (decide (x = y)) as [<-|Hne].
        - rewrite list_lookup_insert by lia. split; [right; constructor|done].
        - rewrite list_lookup_insert_ne, Hins, elem_of_cons by done. naive_solver. }
      destruct p as [p|].
      + pose proof (Hpar _ _ Hp).
        destruct (IH p (<[x := true]> ins) (x :: J)) as (ins' & e & k & H1 & H2 & H3 & H4 & H5 & H6 & H7);
          [lia|lia|by rewrite insert_length|done|done| |].
        { intros y [->|Hy%HJ]%elem_of_cons; lia. }
        exists ins', e, (x :: k). split; [done|]. split; [done|].
        split. { econstructor; [|done|done]. intros <-. specialize (H7 _ eq_refl). lia. }
        split. { cbn. econstructor; [|exact Hp| |done].
          - rewrite elem_of_app. intros [Hk|Hk]; [|done]. apply (chain_ge _ _ _ _ H3) in Hk. lia.
          - intros y [= <-]. done. }
        split; [constructor|]. split.
        { intros y. rewrite H6. cbn. rewrite !elem_of_cons. naive_solver. }
        intros y Hy. specialize (H7 _ Hy). lia.
      + destruct fuel; cbn [forall_ancestors]; rewrite decide_True by done;
          (exists (<[x := true]> ins), None, [x]; split; [done|]; split; [by rewrite insert_length|];
           split; [econstructor; [done|done|constructor]|]; split; [by econstructor|]; split; [constructor|]; split; [|done];
           intros y; rewrite Hins'; cbn; rewrite !elem_of_cons; naive_solver).
  Qed.
End Tree.

(** ** The state of one side *)
(** [l] lists the search space in the order in which the loops visit it. *)
Local Notation seg := (nat * option nat * list nat)%type.
Record side_ok (n : nat) (parent : list (option nat)) (s : side) (l : list nat) : Prop := {
  so_td : length (td s) = n;
  so_pr : length (pr s) = n;
  so_in : length (insp s) = n;
  so_ins : forall y, insp s !! y = Some true <-> y ∈ l;
  so_ord : ord_ok parent l;
  so_segs : exists segs : list seg, nodes s = fst <$> (fst <$> segs) /\ ends s = snd <$> (fst <$> segs) /\
    Forall (fun g => chain parent (Some (fst (fst g))) (snd (fst g)) (snd g) /\ fst (fst g) ∈ l) segs /\
    l = concat (reverse (snd <$> segs)) }.

(** A side without sources. *)
Record fresh (n : nat) (s : side) : Prop := {
  fr_td : td s = replicate n inf_weight;
  fr_pr : length (pr s) = n;
  fr_in : insp s = replicate n false;
  fr_nodes : nodes s = [];
  fr_ends : ends s = [] }.

(** The sources [ss] (ranks) with their distances have been added. *)
Record srcs_ok (ss : list (nat * N)) (t : list N) (p : list (option nat)) (l : list nat) : Prop := {
  sr_le : forall y d, (y, d) ∈ ss -> (tv t y <= d)%N;
  sr_in : forall y d, (y, d) ∈ ss -> y ∈ l;
  sr_val : forall y, (tv t y < inf_weight)%N -> (y, tv t y) ∈ ss /\ p !! y = Some None;
  sr_inf : Forall (fun x => (x <= inf_weight)%N) t }.

Section Query.
  Context (n : nat) (rt rh : list nat) (c : cch) (WF : wf_cch n rt rh c).
  Let parent := c_parent c.
  Let Hplen : length parent = n := wf_plen _ _ _ _ WF.
  Let Hpar := wf_parent _ _ _ _ WF.

  Lemma new_side_fresh : fresh n (new_side n).
  Proof. constructor; cbn; rewrite ?replicate_length; done. Qed.
  Lemma fresh_ok s : fresh n s -> side_ok n parent s [] /\ srcs_ok [] (td s) (pr s) [].
  Proof.
    intros H. destruct H as [H1 H2 H3 H4 H5]. split.
    - constructor; [by rewrite H1, replicate_length|done|by rewrite H3, replicate_length| |constructor|].
      + intros y. rewrite H3. split; [|by intros ?%elem_of_nil]. intros [? ?]%lookup_replicate. done.
      + exists []. by rewrite H4, H5.
    - assert (forall y, tv (td s) y = inf_weight) as Hi.
      { intros y. rewrite H1. unfold tv. destruct (replicate n inf_weight !! y) as [x|] eqn:E; [|done].
        by apply lookup_replicate in E as [-> _]. }
      constructor; [by intros ? ? ?%elem_of_nil|by intros ? ? ?%elem_of_nil| |].
      + intros y. rewrite Hi. lia.
      + rewrite H1. by apply Forall_replicate.
  Qed.

  (** every segment fits into the fuel *)
  Lemma seg_fuel x e k : chain parent (Some x) e k -> x < n -> length k <= length parent.
  Proof. intros H Hx. pose proof (chain_len n parent Hplen Hpar _ _ _ H). lia. Qed.
  Lemma ord_lt l x : ord_ok parent l -> x ∈ l -> x < n.
  Proof.
    induction 1 as [|y p l Hy Hp _ _ IH]; [by intros ?%elem_of_nil|].
    intros [->|Hx]%elem_of_cons; [|auto]. apply lookup_lt_Some in Hp. lia.
  Qed.

  Lemma for_segments_each {St} s l (f : nat -> St -> option St) st :
    side_ok n parent s l -> for_segments c s f (length (nodes s)) st = for_each l f st.
  Proof.
    intros H. destruct (so_segs _ _ _ _ H) as (segs & Hn & He & Hc & Hl). pose proof (so_ord _ _ _ _ H) as Hord.
    assert (forall cnt st, cnt <= length segs ->
      for_segments c s f cnt st = for_each (concat (reverse (snd <$> take cnt segs))) f st) as Hgen.
    { induction cnt as [|cnt IH]; intros st0 Hcnt; [done|].
      destruct (lookup_lt_is_Some_2 segs cnt) as [[[x e] k] Hg]; [lia|].
      cbn [for_segments]. assert (nodes s !! cnt = Some x) as -> by (by rewrite Hn, !list_lookup_fmap, Hg). bs.
      assert (ends s !! cnt = Some e) as -> by (by rewrite He, !list_lookup_fmap, Hg). bs.
      rewrite (take_S_r _ _ _ Hg), fmap_app, reverse_app. cbn [fmap list_fmap snd]. rewrite reverse_singleton. cbn [app concat].
      rewrite for_each_app. eapply Forall_lookup_1 in Hc as [Hc Hx]; [|exact Hg]. cbn in Hc, Hx.
      rewrite (forall_ancestors_chain _ _ _ _ k) by (first [done|eapply seg_fuel; [done|by eapply ord_lt]]).
      destruct (for_each k f st0) as [st1|]; [|done]. bs. apply IH. lia. }
    rewrite Hgen by (by rewrite Hn, !fmap_length). rewrite take_ge by (by rewrite Hn, !fmap_length). by rewrite <- Hl.
  Qed.

  (** ** Adding a source *)
  Lemma add_source_spec s l ss ext x d :
    side_ok n parent s l -> srcs_ok ss (td s) (pr s) l -> c_rank c !! ext = Some x -> (d <= inf_weight)%N ->
    x < n ->
    exists s' l', internal_add_source c ext d s = Some s' /\ side_ok n parent s' l' /\
      srcs_ok ((x, d) :: ss) (td s') (pr s') l'.
  Proof.
    intros Hs Hss Hrank Hd Hx. unfold internal_add_source. rewrite Hrank. bs.
    pose proof (so_td _ _ _ _ Hs). pose proof (so_pr _ _ _ _ Hs). pose proof (so_in _ _ _ _ Hs).
    rewrite tv_Some by lia. bs. case_decide as Ht.
    - rewrite wr_Some by lia. bs. rewrite wr_Some by lia. bs.
      destruct (mark_spec n parent Hplen Hpar l [] (length (c_parent c)) x (insp s)) as (ins' & e & k & H1' & H2' & H3' & H4' & H5' & H6' & H7');
        [done|fold parent; lia|done|apply Hs| |by intros ? ?%elem_of_nil|].
      { intros y. rewrite (so_ins _ _ _ _ Hs). rewrite elem_of_nil. naive_solver. }
      unfold mark, parent in H1'. rewrite H1'. bs. cbv iota.
      eexists _, (k ++ l). split; [done|]. split.
      + constructor; cbn; [by rewrite insert_length|by rewrite insert_length|done| |done|].
        { intros y. rewrite H6', elem_of_nil. naive_solver. }
        destruct (so_segs _ _ _ _ Hs) as (segs & Hn & He & Hc & Hl).
        exists (segs ++ [(x, e, k)]). rewrite !fmap_app, reverse_app. cbn [fmap list_fmap fst snd].
        rewrite reverse_singleton. cbn [app concat]. rewrite <- Hl.
        split; [by rewrite Hn|]. split; [by rewrite He|]. split; [|done].
        apply Forall_app. split; [|by apply Forall_singleton].
        eapply Forall_impl; [exact Hc|]. cbn. intros g [? ?]. rewrite elem_of_app. naive_solver.
      + constructor; cbn.
        * intros y d' Hin. rewrite tv_insert by lia. apply elem_of_cons in Hin as [[= -> ->]|Hin].
          { by rewrite decide_True. }
          pose proof (sr_le _ _ _ _ Hss _ _ Hin). case_decide as Hxy; [rewrite <- Hxy in *; rewrite Ht in *; lia|done].
        * intros y d' Hin. apply elem_of_cons in Hin as [[= -> ->]|Hin]; [done|].
          apply elem_of_app. right. by eapply (sr_in _ _ _ _ Hss).
        * intros y. rewrite tv_insert by lia. case_decide as Hxy.
          { subst y. intros Hlt. split; [constructor|]. by rewrite list_lookup_insert by lia. }
          intros Hlt. destruct (sr_val _ _ _ _ Hss _ Hlt). split; [by constructor|]. by rewrite list_lookup_insert_ne.
        * apply Forall_insert; [apply Hss|done].
    - rewrite (min_to_spec _ _ _ (tv (td s) x)) by (apply tv_Some; lia). bs.
      eexists _, l. split; [done|].
      assert (tv (td s) x < inf_weight)%N as Hlt.
      { pose proof (tv_le _ (sr_inf _ _ _ _ Hss) x). lia. }
      destruct (sr_val _ _ _ _ Hss _ Hlt) as [Hin0 Hp0]. split.
      + destruct Hs. constructor; cbn; try done. by rewrite insert_length.
      + constructor; cbn.
        * intros y d' Hin. rewrite tv_insert by lia. apply elem_of_cons in Hin as [[= -> ->]|Hin].
          { rewrite decide_True by done. lia. }
          pose proof (sr_le _ _ _ _ Hss _ _ Hin). case_decide as Hxy; [rewrite <- Hxy in *; lia|done].
        * intros y d' Hin. apply elem_of_cons in Hin as [[= -> ->]|Hin]; [|by eapply (sr_in _ _ _ _ Hss)].
          by eapply (sr_in _ _ _ _ Hss).
        * intros y. rewrite tv_insert by lia. case_decide as Hxy.
          { subst y. intros _. split; [|done]. destruct (N.min_spec (tv (td s) x) d) as [[_ ->]|[_ ->]]; [by constructor|constructor]. }
          intros Hlt'. destruct (sr_val _ _ _ _ Hss _ Hlt'). split; [by constructor|done].
        * apply Forall_insert; [apply Hss|]. pose proof (tv_le _ (sr_inf _ _ _ _ Hss) x). lia.
  Qed.

  (** ** Upward relaxation *)
  Definition upw (W : list N) : warcs := fun u v x => exists a, up_arc c a u v /\ W !! a = Some x.
  Lemma upw_lt W u v x : upw W u v x -> u < v /\ v < n.
  Proof. intros (a & Ha & _). apply (up_arc_lt _ _ _ _ WF) in Ha. lia. Qed.
  Lemma upw_anc W u v x : upw W u v x -> ancestor parent u v.
  Proof. intros (a & Ha & _). by eapply (wf_ancestor _ _ _ _ WF). Qed.
  Lemma upstar_anc W u v L : upstar (upw W) u v L -> ancestor parent u v.
  Proof.
    assert (forall x y z, ancestor parent x y -> ancestor parent y z -> ancestor parent x z) as Htr.
    { intros x y z H. induction H; [done|]. intros. econstructor; eauto. }
    induction 1 as [|u x v L w _ IH Ha]; [constructor|]. eapply Htr; [done|by eapply upw_anc].
  Qed.

  Section Relax.
    Context (W : list N) (HWlen : length W = length (up_head c)) (HW : Forall (fun x => (x <= inf_weight)%N) W).

    (** The effect of relaxing the arcs of [x] that satisfy [Q]. *)
    Record relaxed (Q : nat -> Prop) (x : nat) (t : list N) (p : list (option nat)) (t' : list N) (p' : list (option nat)) : Prop := {
      re_t : length t' = length t;
      re_p : length p' = length p;
      re_inf : Forall (fun x => (x <= inf_weight)%N) t';
      re_le : forall y, (tv t' y <= tv t y)%N;
      re_new : forall y, (tv t' y < tv t y)%N ->
        exists wt, upw W x y wt /\ tv t' y = (tv t x + wt)%N /\ p' !! y = Some (Some x);
      re_old : forall y, tv t' y = tv t y -> p' !! y = p !! y;
      re_arc : forall a y wt, Q a -> up_arc c a x y -> W !! a = Some wt -> (tv t' y <= tv t x + wt)%N }.

    Lemma relaxed_self Q x t p t' p' : relaxed Q x t p t' p' -> tv t' x = tv t x.
    Proof.
      intros H. pose proof (re_le _ _ _ _ _ _ H x). destruct (decide (tv t' x < tv t x)%N) as [Hlt|]; [|lia].
      destruct (re_new _ _ _ _ _ _ H x Hlt) as (wt & Ha & _). apply upw_lt in Ha. lia.
    Qed.

    Lemma relax_outgoing_spec x t p :
      x < n -> length t = n -> length p = n -> Forall (fun x => (x <= inf_weight)%N) t ->
      exists t' p', relax_outgoing c W x (t, p) = Some (t', p') /\ relaxed (fun _ => True) x t p t' p'.
    Proof.
      intros Hx Ht Hp Hinf. unfold relax_outgoing.
      destruct (csr_range _ _ _ x (wf_up _ _ _ _ WF)) as (lo & hi & Hlo & Hhi & Hr); [done|].
      rewrite Hlo. bs. rewrite Hhi. bs.
      destruct (for_range_inv (fun j '(t', p') => relaxed (fun a => a < j) x t p t' p')
        (fun xy '(t, p) => y ← up_head c !! xy; tx ← t !! x; wxy ← W !! xy; ty ← t !! y;
          if decide (add32 tx wxy < ty)%N then
            t ← wr t y (add32 tx wxy); p ← wr p y (Some x); Some (t, p)
          else Some (t, p)) lo hi (t, p)) as ([t' p'] & Hf & Hre); [lia| | |].
      - constructor; try done; try lia.
        intros a y wt Ha Hay _. apply (up_arc_out _ _ _ _ WF) in Hay as [(lo' & hi' & ? & ? & ?) _]. simplify_eq. lia.
      - intros j [t1 p1] Hj Hre.
        assert (exists y, up_head c !! j = Some y) as [y Hy] by (apply lookup_lt_is_Some_2; lia).
        assert (up_arc c j x y) as Ha.
        { apply (up_arc_out _ _ _ _ WF). split; [|done]. by exists lo, hi. }
        destruct (lookup_lt_is_Some_2 W j) as [wt Hwt]; [lia|].
        pose proof (up_arc_lt _ _ _ _ WF _ _ _ Ha) as Hlt.
        pose proof (re_t _ _ _ _ _ _ Hre) as Hl1. pose proof (re_p _ _ _ _ _ _ Hre) as Hl2.
        pose proof (tv_le _ (re_inf _ _ _ _ _ _ Hre)) as Hle.
        pose proof (relaxed_self _ _ _ _ _ _ Hre) as Hself.
        assert (wt <= inf_weight)%N as Hwti by (by eapply Forall_lookup_1 in HW; [|exact Hwt]).
        rewrite Hy. bs. rewrite (tv_Some t1 x) by lia. bs. rewrite Hwt. bs. rewrite (tv_Some t1 y) by lia. bs.
        rewrite add32_le by (try done; apply Hle). rewrite Hself.
        case_decide as Hd.
        + rewrite wr_Some by lia. bs. rewrite wr_Some by lia. bs. eexists. split; [done|].
          constructor.
          * by rewrite insert_length.
          * by rewrite insert_length.
          * apply Forall_insert; [apply Hre|]. pose proof (Hle y). lia.
          * intros z. rewrite tv_insert by lia. pose proof (re_le _ _ _ _ _ _ Hre z). case_decide as Hyz; [rewrite <- Hyz in *|]; lia.
          * intros z. rewrite tv_insert by lia. case_decide.
            { subst z. intros _. exists wt. split; [by exists j|]. split; [done|]. by rewrite list_lookup_insert by lia. }
            intros Hz. rewrite list_lookup_insert_ne by done. by apply (re_new _ _ _ _ _ _ Hre).
          * intros z. rewrite tv_insert by lia. case_decide.
            { subst z. pose proof (re_le _ _ _ _ _ _ Hre y). lia. }
            intros Hz. rewrite list_lookup_insert_ne by done. by apply (re_old _ _ _ _ _ _ Hre).
          * intros a z wt' Haj Haz Hwt'. rewrite tv_insert by lia. case_decide.
            { subst z. rewrite (up_arc_unique _ _ _ _ WF _ _ _ _ Haz Ha) in Hwt'. simplify_eq. lia. }
            destruct (decide (a = j)) as [->|].
            { destruct (up_arc_fun _ _ _ _ _ _ Haz Ha). congruence. }
            eapply (re_arc _ _ _ _ _ _ Hre a); [|done|done]. lia.
        + eexists. split; [done|]. destruct Hre. constructor; try done.
          intros a z wt' Haj Haz Hwt'. destruct (decide (a = j)) as [->|].
          { destruct (up_arc_fun _ _ _ _ _ _ Haz Ha) as [_ ->]. simplify_eq. lia. }
          eapply re_arc0; [|done|done]. lia.
      - exists t', p'. split; [exact Hf|]. destruct Hre. constructor; try done.
        intros a y wt _ Hay Hwt. eapply re_arc0; [|done|done].
        apply (up_arc_out _ _ _ _ WF) in Hay as [(lo' & hi' & ? & ? & ?) _]. simplify_eq. lia.
    Qed.

    (** [pre] is the part of the search space done so far. *)
    Record upinv (pre : list nat) (t0 : list N) (p0 : list (option nat)) (t : list N) (p : list (option nat)) : Prop := {
      ui_t : length t = n;
      ui_p : length p = n;
      ui_inf : Forall (fun x => (x <= inf_weight)%N) t;
      ui_le : forall y, (tv t y <= tv t0 y)%N;
      ui_pred : forall y, (tv t y < inf_weight)%N -> (tv t y = tv t0 y /\ p !! y = p0 !! y) \/
        exists x wt, x ∈ pre /\ upw W x y wt /\ tv t y = (tv t x + wt)%N /\ p !! y = Some (Some x);
      ui_done : forall x y wt, x ∈ pre -> upw W x y wt -> (tv t y <= tv t x + wt)%N }.

    Lemma upinv_step pre x post t0 p0 t p :
      ord_ok parent (pre ++ x :: post) -> upinv pre t0 p0 t p ->
      exists t' p', relax_outgoing c W x (t, p) = Some (t', p') /\ upinv (pre ++ [x]) t0 p0 t' p' /\
        (forall z, z ∈ pre ++ [x] -> tv t' z = tv t z).
    Proof.
      intros Hord H. assert (x < n) as Hx. { eapply ord_lt; [exact Hord|]. apply elem_of_app. right. constructor. }
      destruct (relax_outgoing_spec x t p) as (t' & p' & Hr & Hre); [done|apply H..|].
      exists t', p'. split; [done|].
      assert (forall z, z ∈ pre ++ [x] -> tv t' z = tv t z) as Hkeep.
      { intros z Hz. pose proof (re_le _ _ _ _ _ _ Hre z). destruct (decide (tv t' z < tv t z)%N) as [Hlt|]; [|lia].
        destruct (re_new _ _ _ _ _ _ Hre z Hlt) as (wt & Ha & _).
        assert (z ∈ post) as Hzp.
        { eapply ord_later; [by eapply ord_suffix|by eapply upw_anc|]. apply upw_lt in Ha. lia. }
        apply ord_nodup in Hord. change (x :: post) with ([x] ++ post) in Hord. rewrite app_assoc in Hord.
        apply NoDup_app in Hord as (_ & Hd & _). by destruct (Hd _ Hz). }
      split; [|done].
      constructor.
      - rewrite (re_t _ _ _ _ _ _ Hre). apply H.
      - rewrite (re_p _ _ _ _ _ _ Hre). apply H.
      - apply Hre.
      - intros y. pose proof (re_le _ _ _ _ _ _ Hre y). pose proof (ui_le _ _ _ _ _ H y). lia.
      - intros y Hy. pose proof (re_le _ _ _ _ _ _ Hre y).
        destruct (decide (tv t' y < tv t y)%N) as [Hlt|].
        + destruct (re_new _ _ _ _ _ _ Hre y Hlt) as (wt & Ha & Hv & Hp). right. exists x, wt.
          split; [apply elem_of_app; right; constructor|]. split; [done|]. split; [|done].
          rewrite (Hkeep x); [done|apply elem_of_app; right; constructor].
        + assert (tv t' y = tv t y) as Heq by lia. rewrite (re_old _ _ _ _ _ _ Hre y Heq), Heq.
          destruct (ui_pred _ _ _ _ _ H y) as [[? ?]|(x' & wt & Hin & Ha & Hv & Hp)]; [lia|by left|].
          right. exists x', wt. split; [apply elem_of_app; by left|]. split; [done|]. split; [|done].
          rewrite (Hkeep x'); [done|apply elem_of_app; by left].
      - intros x' y wt Hin Ha. rewrite (Hkeep x') by done.
        apply elem_of_app in Hin as [Hin| ->%elem_of_list_singleton].
        + pose proof (ui_done _ _ _ _ _ H _ _ _ Hin Ha). pose proof (re_le _ _ _ _ _ _ Hre y). lia.
        + destruct Ha as (a & Ha & Hw). by eapply (re_arc _ _ _ _ _ _ Hre).
    Qed.

    Lemma up_run l t0 p0 :
      ord_ok parent l -> length t0 = n -> length p0 = n -> Forall (fun x => (x <= inf_weight)%N) t0 ->
      exists t p, for_each l (relax_outgoing c W) (t0, p0) = Some (t, p) /\ upinv l t0 p0 t p.
    Proof.
      intros Hord Ht Hp Hinf.
      destruct (for_each_inv (fun pre '(t, p) => upinv pre t0 p0 t p) (relax_outgoing c W) l (t0, p0)) as ([t p] & Hf & Hi).
      - constructor; try done. { by left. } by intros ? ? ? ?%elem_of_nil.
      - intros pre x post [t p] -> Hi. destruct (upinv_step _ _ _ _ _ _ _ Hord Hi) as (t' & p' & ? & ? & _). by exists (t', p').
      - eauto.
    Qed.

    (** ** What the relaxation computes *)
    (** [r] is a path of predecessors, from the top to its start. *)
    Inductive upath : list nat -> N -> Prop :=
      | upath_one s : upath [s] 0
      | upath_cons y x r L wt : upw W x y wt -> upath (x :: r) L -> upath (y :: x :: r) (L + wt)%N.
    Lemma upath_upstar r L y s : upath r L -> head r = Some y -> list.last r = Some s -> upstar (upw W) s y L.
    Proof.
      clear HWlen HW. intros H. revert y. induction H as [s'|y' x r L wt Ha _ IH]; intros y Hy Hs.
      - cbn in Hy, Hs. simplify_eq. constructor.
      - injection Hy as ->. econstructor; [|exact Ha]. by apply IH.
    Qed.

    Section Result.
      Context (ss : list (nat * N)) (l : list nat) (t0 t : list N) (p0 p : list (option nat)).
      Context (Hord : ord_ok parent l) (HS : srcs_ok ss t0 p0 l) (HU : upinv l t0 p0 t p).

      Lemma up_le s d y L : (s, d) ∈ ss -> upstar (upw W) s y L -> (tv t y <= d + L)%N.
      Proof.
        clear HWlen HW.
        intros Hin. assert (s ∈ l) as Hsl by (by eapply (sr_in _ _ _ _ HS)). intros H. induction H as [s|s x y L wt H IH Ha].
        - pose proof (sr_le _ _ _ _ HS _ _ Hin). pose proof (ui_le _ _ _ _ _ HU s). lia.
        - assert (x ∈ l). { eapply ord_anc; [done|exact Hsl|by eapply upstar_anc]. }
          pose proof (ui_done _ _ _ _ _ HU _ _ _ H0 Ha). specialize (IH Hin Hsl). lia.
      Qed.
      Lemma up_pred y : (tv t y < inf_weight)%N -> forall fuel, y < fuel ->
        exists r s d L, pred_walk p fuel y = Some r /\ head r = Some y /\ list.last r = Some s /\ (s, d) ∈ ss /\
          upath r L /\ tv t y = (d + L)%N.
      Proof.
        clear HWlen HW.
        induction (lt_wf y) as [y _ IH]. intros Hy fuel Hf. destruct fuel as [|fuel]; [lia|]. cbn [pred_walk].
        destruct (ui_pred _ _ _ _ _ HU y Hy) as [[Hv Hp]|(x & wt & Hx & Ha & Hv & Hp)].
        - rewrite Hp. destruct (sr_val _ _ _ _ HS y) as [Hin Hp0]; [by rewrite <- Hv|]. rewrite Hp0. bs.
          exists [y], y, (tv t0 y), 0%N. split; [done|]. split; [done|]. split; [done|]. split; [done|]. split; [constructor|]. lia.
        - rewrite Hp. bs. pose proof (upw_lt _ _ _ _ Ha).
          destruct (IH x ltac:(lia) ltac:(lia) fuel ltac:(lia)) as (r & s & d & L & Hr & Hh & Hl & Hin & Hpath & Hvx).
          rewrite Hr. bs. exists (y :: r), s, d, (L + wt)%N. split; [done|]. split; [done|].
          destruct r as [|x' r]; [done|]. injection Hh as ->.
          split; [done|]. split; [done|]. split; [by constructor|]. lia.
      Qed.
      Lemma up_reach y : (tv t y < inf_weight)%N -> y ∈ l.
      Proof.
        clear HWlen HW.
        intros Hy. destruct (up_pred y Hy (S y)) as (r & s & d & L & _ & Hh & Hl & Hin & Hpath & _); [lia|].
        eapply ord_anc; [done|by eapply (sr_in _ _ _ _ HS)|]. eapply upstar_anc. by eapply upath_upstar.
      Qed.
    End Result.
  End Relax.

  (** ** The run *)
  Lemma side_ok_with s l t p : side_ok n parent s l -> length t = n -> length p = n ->
    side_ok n parent (mkSide t p (insp s) (nodes s) (ends s)) l.
  Proof. intros [] ? ?. by constructor. Qed.

  Section Run.
    Context (m : metric) (Hf : length (m_fwd m) = length (up_head c)) (Hb : length (m_bwd m) = length (up_head c)).
    Context (Hfi : Forall (fun x => (x <= inf_weight)%N) (m_fwd m)) (Hbi : Forall (fun x => (x <= inf_weight)%N) (m_bwd m)).

    (** The meeting node minimises the sum. *)
    Definition meet_ok (P : nat -> Prop) (tf tb : list N) (meet : option nat) (best : N) : Prop :=
      (best <= inf_weight)%N /\ (forall x, P x -> (best <= tv tf x + tv tb x)%N) /\
      match meet with None => best = inf_weight | Some x => P x /\ best = (tv tf x + tv tb x)%N /\ (best < inf_weight)%N end.

    Lemma q_run_spec q lf lb ss tt :
      q_state q = Initialized ->
      side_ok n parent (q_fw q) lf -> side_ok n parent (q_bw q) lb ->
      srcs_ok ss (td (q_fw q)) (pr (q_fw q)) lf -> srcs_ok tt (td (q_bw q)) (pr (q_bw q)) lb ->
      exists tf pf tb pb meet best, q_run c m q =
        Some (mkQuery (mkSide tf pf (insp (q_fw q)) (nodes (q_fw q)) (ends (q_fw q)))
                      (mkSide tb pb (insp (q_bw q)) (nodes (q_bw q)) (ends (q_bw q))) meet Run) /\
        upinv (m_fwd m) lf (td (q_fw q)) (pr (q_fw q)) tf pf /\
        upinv (m_bwd m) lb (td (q_bw q)) (pr (q_bw q)) tb pb /\
        meet_ok (fun _ => True) tf tb meet best.
    Proof.
      intros Hst Hof Hob Hsf Hsb. unfold q_run. rewrite bool_decide_eq_true_2 by done. cbn [chk]. bs. cbv zeta.
      rewrite (for_segments_each _ _ _ _ Hof).
      destruct (up_run (m_fwd m) Hf Hfi lf (td (q_fw q)) (pr (q_fw q))) as (tf & pf & Hrf & Huf);
        [apply Hof|apply Hof|apply Hof|apply Hsf|].
      rewrite Hrf. bs. cbv iota. rewrite (for_segments_each _ _ _ _ Hob).
      match goal with |- context [for_each lb ?body ?st] =>
        destruct (for_each_inv (fun pre '(tb, pb, meet, best) =>
          upinv (m_bwd m) pre (td (q_bw q)) (pr (q_bw q)) tb pb /\ meet_ok (fun x => x ∈ pre /\ x ∈ lf) tf tb meet best)
          body lb st) as ([[[tb pb] meet] best] & Hrb & Hub & Hm) end.
      - split.
        + constructor; try apply Hob; try apply Hsb; try done. { by left. } by intros ? ? ? ?%elem_of_nil.
        + split; [done|]. split; [|done]. intros x [Hx _]. by apply elem_of_nil in Hx.
      - intros pre x post [[[tb pb] meet] best] Hl [Hub (Hbi1 & Hmin & Hm)].
        assert (x ∈ lb) as Hx by (rewrite Hl; apply elem_of_app; right; constructor).
        assert (x < n) as Hxn by (eapply ord_lt; [apply Hob|done]).
        pose proof (so_ord _ _ _ _ Hob) as Hord. rewrite Hl in Hord.
        destruct (upinv_step (m_bwd m) Hb Hbi _ _ _ _ _ _ _ Hord Hub) as (tb' & pb' & Hr & Hub' & Hkeep).
        rewrite Hr. bs. cbv iota.
        pose proof (ui_t _ _ _ _ _ _ Huf) as Hltf. pose proof (ui_t _ _ _ _ _ _ Hub') as Hltb.
        pose proof (tv_le _ (ui_inf _ _ _ _ _ _ Huf) x) as Hlef. pose proof (tv_le _ (ui_inf _ _ _ _ _ _ Hub') x) as Hleb.
        destruct (lookup_lt_is_Some_2 (insp (q_fw q)) x) as [i Hi]; [rewrite (so_in _ _ _ _ Hof); lia|].
        assert (meet_ok (fun x => x ∈ pre /\ x ∈ lf) tf tb' meet best) as Hold.
        { split; [done|]. split.
          - intros z [Hz Hzf]. rewrite (Hkeep z) by (apply elem_of_app; by left). auto.
          - destruct meet as [z|]; [|done]. destruct Hm as ([Hz Hzf] & -> & Hlt).
            rewrite (Hkeep z) by (apply elem_of_app; by left). done. }
        rewrite Hi. bs. destruct i.
        + rewrite (tv_Some tf x) by lia. bs. rewrite (tv_Some tb' x) by lia. bs. rewrite add32_le by done.
          assert (x ∈ lf) as Hxf by (by apply (so_ins _ _ _ _ Hof)).
          destruct Hold as (_ & Hmin' & Hm').
          case_decide as Hd.
          * eexists (_, _, _, _). split; [done|]. split; [done|]. split; [lia|]. split.
            { intros z [[Hz| ->%elem_of_list_singleton]%elem_of_app Hzf]; [|done]. specialize (Hmin' z (conj Hz Hzf)). lia. }
            split; [|lia]. split; [apply elem_of_app; right; constructor|done].
          * eexists (_, _, _, _). split; [done|]. split; [done|]. split; [done|]. split.
            { intros z [[Hz| ->%elem_of_list_singleton]%elem_of_app Hzf]; [|lia]. by apply Hmin'. }
            destruct meet as [z|]; [|done]. destruct Hm' as ([Hz Hzf] & ? & ?). split; [|done].
            split; [apply elem_of_app; by left|done].
        + assert (x ∉ lf) as Hxf. { intros Hxf. apply (so_ins _ _ _ _ Hof) in Hxf. congruence. }
          destruct Hold as (_ & Hmin' & Hm').
          eexists (_, _, _, _). split; [done|]. split; [done|]. split; [done|]. split.
          { intros z [[Hz| ->%elem_of_list_singleton]%elem_of_app Hzf]; [|done]. by apply Hmin'. }
          destruct meet as [z|]; [|done]. destruct Hm' as ([Hz Hzf] & ? & ?). split; [|done].
          split; [apply elem_of_app; by left|done].
      - rewrite Hrb. bs. cbv iota. exists tf, pf, tb, pb, meet, best. split; [done|]. split; [done|]. split; [done|].
        destruct Hm as (Hbi1 & Hmin & Hm). split; [done|]. split.
        + intros x _.
          destruct (decide (tv tf x < inf_weight)%N) as [Hx1|]; [|lia].
          destruct (decide (tv tb x < inf_weight)%N) as [Hx2|]; [|lia].
          apply Hmin. split.
          * eapply (up_reach (m_bwd m) tt lb); [apply Hob|apply Hsb|exact Hub|done].
          * eapply (up_reach (m_fwd m) ss lf); [apply Hof|apply Hsf|exact Huf|done].
        + destruct meet; [|done]. naive_solver.
    Qed.
  End Run.

  (** ** Distances *)
  Lemma dist_walk_app (E : warcs) u x v L M : dist_walk E u x L -> dist_walk E x v M -> dist_walk E u v (L + M)%N.
  Proof.
    intros [[-> ->]|[k H]] H2; [done|]. destruct H2 as [[-> ->]|[k2 H2]].
    - rewrite N.add_0_r. right. by exists k.
    - right. exists (k + k2). by eapply gw_app.
  Qed.

  Section Distance.
    Context (w : list N) (m : metric) (CU : customized rt rh c w m).
    Definition wts (d : bool) : list N := if d then m_fwd m else m_bwd m.
    Lemma wts_len d : length (wts d) = length (up_head c).
    Proof. destruct d; apply CU. Qed.
    Lemma wts_inf d : Forall (fun x => (x <= inf_weight)%N) (wts d).
    Proof.
      apply Forall_lookup. intros a x Ha. eapply (cu_inf _ _ _ _ _ CU d a). by destruct d.
    Qed.
    Lemma wts_dw d a : wts d !! a = dw m d a.
    Proof. by destruct d. Qed.

    Lemma dist_walk_rev d u v L : dist_walk (dgraph rt rh w d) u v L -> dist_walk (dgraph rt rh w (negb d)) v u L.
    Proof. intros [[-> ->]|[k H]]; [by left|right]. exists k. by apply dgraph_rev. Qed.

    Lemma upstar_walk d u v L : upstar (upw (wts d)) u v L -> (L < inf_weight)%N -> dist_walk (dgraph rt rh w d) u v L.
    Proof.
      induction 1 as [u|u x v L wt _ IH (a & Ha & Hwt)]; intros HL; [by left|].
      eapply dist_walk_app; [apply IH; lia|]. right. rewrite wts_dw in Hwt.
      destruct (cu_sound _ _ _ _ WF w m CU d a x v wt Ha Hwt) as [k Hk]; [lia|]. exists k. eapply gw_mono; [|exact Hk]. done.
    Qed.
    Lemma climb d u z L : u <= z -> (u = z /\ L = 0%N) \/ (exists k, gw (dgraph rt rh w d) (fun x => x < z) u z L k) ->
      (L < inf_weight)%N -> exists L', (L' <= L)%N /\ upstar (upw (wts d)) u z L'.
    Proof.
      intros Hle [[-> ->]|[k H]] HL; [exists 0%N; split; [lia|constructor]|].
      eapply gw_climb; [|exact Hle|exact H|exact HL].
      intros u' v' L' k' Hlt Hw Hi.
      destruct (cu_complete _ _ _ _ WF w m CU k' d u' v' L' Hlt Hw Hi) as (a & x & Ha & Hx & Hxl).
      exists x. split; [done|]. exists a. split; [done|]. by rewrite wts_dw.
    Qed.

    Lemma meet_best lf lb ss tt tf0 pf0 tb0 pb0 tf pf tb pb meet best :
      ord_ok parent lf -> ord_ok parent lb -> srcs_ok ss tf0 pf0 lf -> srcs_ok tt tb0 pb0 lb ->
      upinv (m_fwd m) lf tf0 pf0 tf pf -> upinv (m_bwd m) lb tb0 pb0 tb pb -> meet_ok (fun _ => True) tf tb meet best ->
      best_route (arcs_of rt rh w) ss tt best.
    Proof.
      intros Hof Hob Hsf Hsb Huf Hub (Hbi & Hmin & Hm). split; [done|]. split.
      - intros s ds t dt L Hs Ht Hw. destruct (decide (ds + L + dt < inf_weight)%N) as [Hlt|]; [|lia].
        destruct (walk_apex _ _ _ _ Hw) as (z & L1 & L2 & HL & Hsz & Htz & H1 & H2).
        destruct (climb true s z L1 Hsz) as (L1' & HL1 & Hup1); [exact H1|lia|].
        destruct (climb false t z L2 Htz) as (L2' & HL2 & Hup2); [|lia|].
        { destruct H2 as [?|[k H2]]; [by left|right]. exists k. apply (dgraph_rev rt rh w true). exact H2. }
        pose proof (up_le (m_fwd m) ss lf tf0 tf pf0 pf Hof Hsf Huf _ _ _ _ Hs Hup1).
        pose proof (up_le (m_bwd m) tt lb tb0 tb pb0 pb Hob Hsb Hub _ _ _ _ Ht Hup2).
        specialize (Hmin z I). lia.
      - destruct meet as [x|]; [right|by left]. destruct Hm as (_ & -> & Hlt).
        destruct (up_pred (m_fwd m) ss lf tf0 tf pf0 pf Hsf Huf x ltac:(lia) (S x)) as (r1 & s & ds & L1 & _ & Hh1 & Hl1 & Hs & Hp1 & Hv1); [lia|].
        destruct (up_pred (m_bwd m) tt lb tb0 tb pb0 pb Hsb Hub x ltac:(lia) (S x)) as (r2 & t & dt & L2 & _ & Hh2 & Hl2 & Ht & Hp2 & Hv2); [lia|].
        exists s, ds, t, dt, (L1 + L2)%N. split; [done|]. split; [done|]. split; [|lia].
        eapply dist_walk_app.
        + eapply (upstar_walk true); [eapply upath_upstar; done|lia].
        + eapply (dist_walk_rev false), (upstar_walk false); [eapply upath_upstar; done|lia].
    Qed.
  End Distance.
End Query.
