(** The search for connected components (nested_dissection.cpp:618-644). *)
From stdpp Require Import relations.
From Verif Require Import Base GraphSpec UtilSpec FlowModel FlowSpec FlowArray NestedModel NestedSpec.
Ltac Zify.zify_post_hook ::= idtac.

Section Comp.
  Context (g : fragment) (Hok : fragment_ok g).
  Notation n := (fr_nodes g).
  Notation m := (fr_arcs g).

  Lemma arc_lt x y : arc g x y -> x < n /\ y < n.
  Proof.
    intros (a & H1 & H2). destruct (frag_tail_lt g Hok _ _ H1) as [Ha Hx]. split; [done|].
    destruct (frag_head g Hok a Ha) as (y' & E & Hy). by simplify_eq.
  Qed.
  Lemma arc_sym x y : arc g x y -> arc g y x.
  Proof.
    intros (a & H1 & H2). destruct (frag_tail_lt g Hok _ _ H1) as [Ha Hx]. destruct (frag_back g Hok a Ha) as (b & Hb & _ & _).
    destruct (fo_swap _ Hok _ _ Hb) as [E1 E2]. exists b. by rewrite E1, E2.
  Qed.
  Lemma rtc_sym x y : rtc (arc g) x y -> rtc (arc g) y x.
  Proof. induction 1 as [|x y z H _ IH]; [done|]. eapply rtc_r; [done|by apply arc_sym]. Qed.

  Section Inner.
    Context (c r : nat) (P0 : list nat) (comp0 : list (option nat)).
    Context (HP0 : forall x y, arc g x y -> y ∈ P0 -> x ∈ P0).

    Record dinv (new q stack : list nat) (se : nat) (comp : list (option nat)) (inv : list nat) : Prop := {
      di_stack : sarr n stack se q;
      di_comp : length comp = n;
      di_invl : length inv = n;
      di_nodup : NoDup (P0 ++ new ++ q);
      di_lt : forall x, x ∈ P0 ++ new ++ q -> x < n;
      di_old : forall x, x ∈ P0 -> comp !! x = comp0 !! x;
      di_new : forall x, x ∈ new ++ q -> comp !! x = Some (Some c);
      di_none : forall x, x < n -> x ∉ P0 ++ new ++ q -> comp !! x = Some None;
      di_inv : forall p x, (P0 ++ new) !! p = Some x -> inv !! x = Some p;
      di_reach : forall x, x ∈ new ++ q -> rtc (arc g) r x }.
    Definition closed_new (new q : list nat) : Prop := forall x y, x ∈ new -> arc g x y -> y ∈ new ++ q.

    Lemma dinv_push new q stack se comp inv y : dinv new q stack se comp inv -> y < n -> comp !! y = Some None -> rtc (arc g) r y -> (forall x, x ∈ P0 -> comp0 !! x <> Some None) ->
      exists stack', wr stack se y = Some stack' /\ wr comp y (Some c) = Some (<[y:=Some c]> comp) /\ dinv new (q ++ [y]) stack' (se + 1) (<[y:=Some c]> comp) inv.
    Proof.
      intros [H1 H2 H3 H4 H5 H6 H7 H8 H9 H10] Hy Ey Hr H0.
      assert (y ∉ P0 ++ new ++ q) as Hny.
      { intros Hin. rewrite elem_of_app in Hin. destruct Hin as [Hin|Hin]; [|rewrite (H7 _ Hin) in Ey; done]. rewrite (H6 _ Hin) in Ey. by apply (H0 y). }
      assert (NoDup ((P0 ++ new ++ q) ++ [y])) as Hnd by (by apply nodup_snoc).
      destruct (sarr_push n stack se q y H1) as (stack' & E & Hs).
      { pose proof (nodup_lt_len n _ Hnd) as Hlen. rewrite !app_length in Hlen. cbn in Hlen. enough (length P0 + (length new + length q) + 1 <= n) by lia. apply Hlen.
        intros x Hx. apply elem_of_app in Hx as [Hx|Hx%elem_of_list_singleton]; [auto|by subst]. }
      exists stack'. split; [done|]. rewrite (wr_Some comp) by lia. split; [done|].
      assert (forall x, x ∈ P0 ++ new ++ q ++ [y] <-> x ∈ P0 ++ new ++ q \/ x = y) as Hin by (intros x; rewrite !elem_of_app, elem_of_list_singleton; tauto).
      split; [done|by rewrite insert_length|done| | | | | |done|].
      - by rewrite <- !(assoc_L (++)) in Hnd.
      - intros x [Hx| ->]%Hin; auto.
      - intros x Hx. rewrite list_lookup_insert_ne; [auto|]. intros ->. apply Hny. rewrite elem_of_app. by left.
      - intros x Hx. rewrite (assoc_L (++)) in Hx. apply elem_of_app in Hx as [Hx|Hx%elem_of_list_singleton].
        + rewrite list_lookup_insert_ne; [auto|]. intros ->. apply Hny. rewrite elem_of_app. by right.
        + subst. by rewrite list_lookup_insert by lia.
      - intros x Hx Hnx. rewrite list_lookup_insert_ne; [|intros ->; apply Hnx, Hin; by right]. apply H8; [done|]. intros Hx'. apply Hnx, Hin. by left.
      - intros x Hx. rewrite (assoc_L (++)) in Hx. apply elem_of_app in Hx as [Hx|Hx%elem_of_list_singleton]; [auto|by subst].
    Qed.

    Lemma comp_loop_spec fuel : forall new q stack se comp inv, (forall x, x ∈ P0 -> comp0 !! x <> Some None) ->
      dinv new q stack se comp inv -> closed_new new q -> n <= fuel + length (P0 ++ new) ->
      exists stack' comp' inv' new', comp_loop g c fuel (stack, se, comp) inv (length (P0 ++ new)) = Some (stack', comp', inv', length (P0 ++ new')) /\
        dinv new' [] stack' 0 comp' inv' /\ closed_new new' [] /\ (forall x, x ∈ new ++ q -> x ∈ new').
    Proof.
      induction fuel as [|fuel IH]; intros new q stack se comp inv H0 H Hcl Hfuel.
      all: assert (se = length q) as Hse by (destruct (di_stack _ _ _ _ _ _ H) as (_ & ? & _); done).
      all: cbn [comp_loop]; destruct (se =? 0) eqn:Ez; [apply Nat.eqb_eq in Ez|apply Nat.eqb_neq in Ez].
      1, 3: destruct q; [|cbn in Hse; lia]; exists stack, comp, inv, new; subst; split; [done|]; split; [done|]; split; [done|]; intros x; by rewrite app_nil_r.
      - exfalso. pose proof (nodup_lt_len n _ (di_nodup _ _ _ _ _ _ H) (di_lt _ _ _ _ _ _ H)) as Hlen. rewrite !app_length in *. lia.
      - destruct (exists_last (l := q)) as (q' & x & ->); [by intros ->|].
        destruct H as [H1 H2 H3 H4 H5 H6 H7 H8 H9 H10]. destruct (sarr_pop _ _ _ _ _ H1) as (_ & Ex & Hs). rewrite Ex, bind_S.
        assert (x < n) as Hx by (apply H5; rewrite !elem_of_app, elem_of_list_singleton; tauto).
        rewrite (wr_Some inv) by lia. rewrite bind_S. destruct (frag_range g Hok x Hx) as (lo & hi & -> & -> & Hlh & Ha1 & Ha2). rewrite !bind_S.
        assert (forall z, z ∈ P0 ++ (new ++ [x]) ++ q' <-> z ∈ P0 ++ new ++ q' ++ [x]) as Hperm by (intros z; rewrite !elem_of_app; tauto).
        assert (dinv (new ++ [x]) q' stack (se - 1) comp (<[x:=length (P0 ++ new)]> inv)) as Hd.
        { split; [done|done|by rewrite insert_length| | |done| | | |].
          - assert (P0 ++ (new ++ [x]) ++ q' ≡ₚ P0 ++ new ++ q' ++ [x]) as -> by (by rewrite <- !(assoc_L (++)), (Permutation_app_comm q')). done.
          - intros z Hz. by apply H5, Hperm.
          - intros z Hz. apply H7. rewrite !elem_of_app in *. tauto.
          - intros z Hz Hnz. apply H8; [done|]. by rewrite <- Hperm.
          - intros p z Hz. rewrite (assoc_L (++)) in Hz. destruct (decide (p < length (P0 ++ new))) as [Hlt|Hge].
            + rewrite lookup_app_l in Hz by done. rewrite list_lookup_insert_ne; [auto|]. intros ->. rewrite (assoc_L (++)) in H4.
              apply NoDup_app in H4 as (_ & H4 & _). apply (H4 z); [by eapply elem_of_list_lookup_2|]. rewrite elem_of_app, elem_of_list_singleton. by right.
            + rewrite lookup_app_r in Hz by lia. apply list_lookup_singleton_Some in Hz as [Hp <-]. rewrite list_lookup_insert by lia. f_equal. lia.
          - intros z Hz. apply H10. rewrite !elem_of_app in *. tauto. }
        set (inv1 := <[x:=length (P0 ++ new)]> inv) in *.
        match goal with |- context [for_range lo hi ?body ?init] =>
          destruct (for_range_inv (fun a s => exists q1, let '(stack1, se1, comp1) := s in dinv (new ++ [x]) q1 stack1 se1 comp1 inv1 /\ (forall z, z ∈ q' -> z ∈ q1) /\
            (forall b y, lo <= b < a -> fr_head g !! b = Some y -> y ∈ (new ++ [x]) ++ q1)) body lo hi init) as ([[stack1 se1] comp1] & -> & q1 & Hd1 & Hq1 & Hc1) end.
        + lia.
        + exists q'. split; [done|]. split; [done|]. lia.
        + intros a [[stack1 se1] comp1] Ha (q1 & Hd1 & Hq1 & Hc1). unfold comp_arc. destruct (frag_head g Hok a ltac:(lia)) as (y & Ey & Hy). rewrite Ey, bind_S.
          destruct (lookup_lt_is_Some_2 comp1 y) as [cy Ecy]; [rewrite (di_comp _ _ _ _ _ _ Hd1); lia|]. rewrite Ecy, bind_S.
          assert (arc g x y) as Hxy. { exists a. split; [|done]. apply Ha1. lia. }
          assert (y ∉ P0) as HyP. { intros Hin. pose proof (HP0 _ _ Hxy Hin) as HxP. rewrite NoDup_app in H4. destruct H4 as (_ & H4 & _). apply (H4 _ HxP). rewrite !elem_of_app, elem_of_list_singleton. tauto. }
          destruct cy as [cy|].
          * eexists. split; [done|]. exists q1. split; [done|]. split; [done|]. intros b z Hb Ez'. destruct (decide (b = a)) as [->|]; [|apply (Hc1 b); [lia|done]]. assert (z = y) as -> by congruence.
            destruct (decide (y ∈ P0 ++ (new ++ [x]) ++ q1)) as [Hin|Hnin].
            -- apply elem_of_app in Hin as [Hin|Hin]; [done|done].
            -- rewrite (di_none _ _ _ _ _ _ Hd1 y Hy Hnin) in Ecy. done.
          * destruct (dinv_push _ _ _ _ _ _ y Hd1 Hy Ecy) as (stack2 & -> & -> & Hd2); [|done|].
            { eapply rtc_r; [|exact Hxy]. apply H10. rewrite !elem_of_app, elem_of_list_singleton. tauto. }
            rewrite !bind_S. eexists. split; [done|]. exists (q1 ++ [y]). split; [done|]. split; [intros z Hz; rewrite elem_of_app; auto|].
            intros b z Hb Ez'. destruct (decide (b = a)) as [->|].
            -- assert (z = y) as -> by congruence. rewrite !elem_of_app, !elem_of_list_singleton. tauto.
            -- rewrite (assoc_L (++)), elem_of_app. left. apply (Hc1 b); [lia|done].
        + rewrite bind_S. destruct (IH (new ++ [x]) q1 stack1 se1 comp1 inv1) as (stack' & comp' & inv' & new' & E & Hd' & Hcl' & Hin).
          * done.
          * done.
          * intros z y Hz Hzy. apply elem_of_app in Hz as [Hz|Hz%elem_of_list_singleton].
            -- specialize (Hcl _ _ Hz Hzy). rewrite !elem_of_app, elem_of_list_singleton in *. destruct Hcl as [?|[?|?]]; auto.
            -- subst z. destruct Hzy as (a & E1 & E2). apply (Hc1 a); [|done]. by apply Ha2.
          * rewrite !app_length in *. cbn. lia.
          * exists stack', comp', inv', new'. rewrite (assoc_L (++)), app_length in E. cbn [length] in E. rewrite E. split; [done|]. split; [done|]. split; [done|].
            intros z Hz. apply Hin. rewrite !elem_of_app, elem_of_list_singleton in *. destruct Hz as [?|[?|?]]; auto.
    Qed.
  End Inner.

  (** What is known after some rounds of the outer loop; [pre]: the nodes by position, [c]: the number of components *)
  Record oinv (i : nat) (pre stack : list nat) (comp : list (option nat)) (inv : list nat) (c : nat) : Prop := {
    oi_stack : length stack = n;
    oi_comp : length comp = n;
    oi_invl : length inv = n;
    oi_nodup : NoDup pre;
    oi_lt : forall x, x ∈ pre -> x < n;
    oi_none : forall x, x < n -> x ∉ pre -> comp !! x = Some None;
    oi_some : forall x, x ∈ pre -> exists cx, comp !! x = Some (Some cx) /\ cx < c;
    oi_done : forall x, x < i -> x ∈ pre;
    oi_inv : forall p x, pre !! p = Some x -> inv !! x = Some p;
    oi_arc : forall x y, arc g x y -> x ∈ pre -> y ∈ pre /\ comp !! y = comp !! x;
    oi_conn : forall x y, x ∈ pre -> y ∈ pre -> comp !! x = comp !! y -> rtc (arc g) x y;
    oi_mono : forall p q x y cx cy, p <= q -> pre !! p = Some x -> pre !! q = Some y -> comp !! x = Some (Some cx) -> comp !! y = Some (Some cy) -> cx <= cy;
    oi_first : forall x, pre !! 0 = Some x -> comp !! x = Some (Some 0);
    oi_zero : pre = [] -> c = 0 }.

  Lemma find_components_spec : exists comp inv pre c, find_components g = Some (comp, inv) /\ length pre = n /\ exists stack, oinv n pre stack comp inv c.
  Proof.
    unfold find_components.
    match goal with |- context [for_range 0 _ ?body ?init] =>
      destruct (for_range_inv (fun i '(stack, comp, inv, pos, c) => exists pre, pos = length pre /\ oinv i pre stack comp inv c) body 0 n init)
        as ([[[[stack comp] inv] pos] c] & -> & pre & -> & H) end.
    - lia.
    - exists []. split; [done|]. split; rewrite ?replicate_length; try done.
      + constructor.
      + intros x Hx. by apply elem_of_nil in Hx.
      + intros x Hx _. by apply lookup_replicate_2.
      + intros x Hx. by apply elem_of_nil in Hx.
      + lia.
      + intros x y _ Hx. by apply elem_of_nil in Hx.
      + intros x y Hx. by apply elem_of_nil in Hx.
    - intros r [[[[stack comp] inv] pos] c] Hr (pre & -> & [H1 H2 H3 H4 H5 H6 H7 H8 H9 H10 H11 H12 H13 H14]).
      destruct (lookup_lt_is_Some_2 comp r ltac:(lia)) as [cr Ecr]. rewrite Ecr, bind_S. destruct cr as [cr|].
      + eexists. split; [done|]. exists pre. split; [done|]. split; try done. intros x Hx. destruct (decide (x = r)) as [->|]; [|apply H8; lia].
        destruct (decide (r ∈ pre)); [done|]. rewrite H6 in Ecr by (lia || done). done.
      + assert (r ∉ pre) as Hnr. { intros Hin. destruct (H7 _ Hin) as (? & E & _). congruence. }
        rewrite (wr_Some comp) by lia. rewrite bind_S. rewrite (wr_Some stack) by lia. rewrite bind_S.
        assert (forall x y, arc g x y -> y ∈ pre -> x ∈ pre) as HP0. { intros x y Hxy Hy. apply (H10 y x); [by apply arc_sym|done]. }
        assert (dinv c r pre comp [] [r] (<[0:=r]> stack) 1 (<[r:=Some c]> comp) inv) as Hd.
        { split; [|by rewrite insert_length|done| | | | | | |].
          - destruct stack; [cbn in H1; lia|]. cbn. split; [done|]. split; done.
          - cbn. by apply nodup_snoc.
          - cbn. intros x Hx. rewrite elem_of_app, elem_of_list_singleton in Hx. destruct Hx as [?| ->]; [auto|lia].
          - intros x Hx. rewrite list_lookup_insert_ne; [done|]. by intros ->.
          - cbn. intros x Hx%elem_of_list_singleton. subst. by rewrite list_lookup_insert by lia.
          - cbn. intros x Hx Hnx. rewrite elem_of_app, elem_of_list_singleton in Hnx. rewrite list_lookup_insert_ne by (intros ->; tauto). apply H6; tauto.
          - rewrite app_nil_r. done.
          - cbn. intros x Hx%elem_of_list_singleton. by subst. }
        destruct (comp_loop_spec c r pre comp HP0 n [] [r] (<[0:=r]> stack) 1 (<[r:=Some c]> comp) inv) as (stack' & comp' & inv' & new & E & Hd' & Hcl & Hin).
        * intros x Hx E. destruct (H7 _ Hx) as (? & E' & _). congruence.
        * done.
        * intros x y Hx. by apply elem_of_nil in Hx.
        * lia.
        * rewrite app_nil_r in E. rewrite E, bind_S. cbv beta iota. eexists. split; [done|]. exists (pre ++ new). split; [done|].
          destruct Hd' as [D1 D2 D3 D4 D5 D6 D7 D8 D9 D10]. rewrite !app_nil_r in *.
          assert (r ∈ new) as Hrn by (apply Hin; cbn; by apply elem_of_list_singleton).
          assert (forall x, x ∈ pre -> exists cx, comp' !! x = Some (Some cx) /\ comp !! x = Some (Some cx) /\ cx < c) as Hp.
          { intros x Hx. destruct (H7 _ Hx) as (cx & E1 & E2). exists cx. rewrite (D6 _ Hx). done. }
          split; try done.
          -- apply D1.
          -- intros x [Hx|Hx]%elem_of_app; [destruct (Hp _ Hx) as (cx & E1 & _ & E2); exists cx; split; [done|lia]|exists c; split; [auto|lia]].
          -- intros x Hx. rewrite elem_of_app. destruct (decide (x = r)) as [->|]; [by right|left; apply H8; lia].
          -- intros x y Hxy [Hx|Hx]%elem_of_app.
             ++ destruct (H10 _ _ Hxy Hx) as [Hy Ey]. split; [rewrite elem_of_app; by left|]. by rewrite (D6 _ Hx), (D6 _ Hy).
             ++ pose proof (Hcl _ _ Hx Hxy) as Hy. rewrite app_nil_r in Hy. split; [rewrite elem_of_app; by right|]. by rewrite (D7 _ Hx), (D7 _ Hy).
          -- intros x y [Hx|Hx]%elem_of_app [Hy|Hy]%elem_of_app Exy.
             ++ rewrite (D6 _ Hx), (D6 _ Hy) in Exy. auto.
             ++ destruct (Hp _ Hx) as (cx & E1 & _ & E2). rewrite E1, (D7 _ Hy) in Exy. simplify_eq. lia.
             ++ destruct (Hp _ Hy) as (cx & E1 & _ & E2). rewrite E1, (D7 _ Hx) in Exy. simplify_eq. lia.
             ++ etrans; [apply rtc_sym|]; by apply D10.
          -- intros p q x y cx cy Hpq Hx Hy Ex Ey. destruct (decide (q < length pre)) as [Hq|Hq].
             ++ rewrite lookup_app_l in Hx by lia. rewrite lookup_app_l in Hy by lia. rewrite (D6 x) in Ex by (by eapply elem_of_list_lookup_2).
                rewrite (D6 y) in Ey by (by eapply elem_of_list_lookup_2). by eapply (H12 p q).
             ++ rewrite lookup_app_r in Hy by lia. apply elem_of_list_lookup_2 in Hy. rewrite (D7 _ Hy) in Ey. simplify_eq.
                apply elem_of_list_lookup_2 in Hx. apply elem_of_app in Hx as [Hx|Hx]; [destruct (Hp _ Hx) as (cx' & E1 & _ & E2); simplify_eq; lia|].
                rewrite (D7 _ Hx) in Ex. by simplify_eq.
          -- intros x Hx. destruct pre as [|y pre].
             ++ cbn in Hx. apply elem_of_list_lookup_2 in Hx. rewrite (D7 _ Hx). by rewrite H14.
             ++ cbn in Hx. simplify_eq. rewrite (D6 x) by apply elem_of_list_here. by apply H13.
          -- intros En. destruct new; [by apply elem_of_nil in Hrn|]. by destruct pre.
    - rewrite bind_S. cbv beta iota. exists comp, inv, pre, c. split; [done|]. split; [|by exists stack].
      apply Nat.le_antisymm.
      + apply nodup_lt_len; [apply H|apply H].
      + rewrite <- (seq_length n 0) at 1. apply submseteq_length, NoDup_submseteq; [apply NoDup_seq|]. intros x Hx%elem_of_seq. apply (oi_done _ _ _ _ _ _ H). lia.
  Qed.
End Comp.
