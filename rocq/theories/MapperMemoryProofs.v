(** Proofs about MapperMemoryModel: blocks that no operation touches. *)
From stdpp Require Import gmap.
From Verif Require Import Base BitVectorModel BitVectorSpec BitMemoryModel BitMemorySpec BitMemoryProofs IdMapperModel IdMapperProofs MapperMemoryModel MapperMemorySpec.
Ltac Zify.zify_post_hook ::= idtac.

Section ops.
Context (alloc : nat -> gmap nat (list N) -> option nat) (garbage : nat -> list N).

(** The blocks that exist are kept, except for [x]. *)
Definition kept (x : option nat) (h h' : gmap nat (list N)) : Prop := forall q, is_Some (h !! q) -> x <> Some q -> h' !! q = h !! q.
Lemma kept_refl x h : kept x h h.
Proof. done. Qed.
Lemma allocate_kept d h p h' : allocate alloc d h = Some (Some (p, h')) -> kept None h h'.
Proof.
  unfold allocate. destruct (alloc _ h) as [p'|]; [|done]. destruct (h !! p') eqn:E; [done|]. intros H q Hq _. injection H as <- <-.
  rewrite lookup_insert_ne; [done|]. intros ->. rewrite E in Hq. by destruct Hq.
Qed.
Lemma construct_kept v h o h' : construct alloc v h = Some (Some (o, h')) -> kept None h h'.
Proof.
  unfold construct. destruct (bv_null v); [intros H; injection H as <- <-; apply kept_refl|].
  destruct (allocate alloc (bv_data v) h) as [[[p h1]|]|] eqn:E; cbn; try done. intros H. injection H as <- <-. by eapply allocate_kept.
Qed.
Lemma copy_kept c h o h' : copy_object alloc c h = Some (Some (o, h')) -> kept None h h'.
Proof.
  unfold copy_object. destruct (view h c) as [v|]; [|done]. rewrite bind_S. destruct (bv_copy true v) as [w|]; [|done]. rewrite bind_S. apply construct_kept.
Qed.
Lemma release_kept p h h' : release p h = Some h' -> kept p h h'.
Proof.
  destruct p as [p|]; cbn; [|intros H; injection H as <-; apply kept_refl]. destruct (h !! p); [|done]. cbn. intros H q _ Hq. injection H as <-.
  rewrite lookup_delete_ne; [done|]. by intros ->.
Qed.
Lemma store_kept o v h o' h' : store o v h = Some (o', h') -> kept (fst o) h h'.
Proof.
  unfold store. destruct (fst o) as [p|].
  - destruct (h !! p); [|done]. cbn. intros H q _ Hq. injection H as <- <-. rewrite lookup_insert_ne; [done|]. by intros ->.
  - destruct (chk _); [|done]. cbn. intros H. injection H as <- <-. apply kept_refl.
Qed.
Lemma kept_release x h h1 h2 : kept None h h1 -> release x h1 = Some h2 -> kept x h h2.
Proof.
  intros H1 H2 q Hq Hx. pose proof (H1 q Hq ltac:(done)) as E. rewrite <- E. apply (release_kept _ _ _ H2); [by rewrite E|done].
Qed.
Lemma resize_kept o n v h o' h' : resize_object alloc o n v h = Some (Some (o', h')) -> kept (fst o) h h'.
Proof.
  unfold resize_object. destruct (match fst o with None => false | Some _ => _ end).
  - destruct (store o v h) as [[o1 h1]|] eqn:E; cbn; [|done]. intros H. injection H as <- <-. by eapply store_kept.
  - destruct (construct alloc v h) as [[[o1 h1]|]|] eqn:E; cbn; try done. destruct (release (fst o) h1) as [h2|] eqn:E2; cbn; [|done].
    intros H. injection H as <- <-. eapply kept_release; [by eapply construct_kept|done].
Qed.
Lemma put_vars s i h o s' : put s i h o = Some s' -> heap s' = h /\ vars s' = <[i := o]> (vars s) /\ i < length (vars s).
Proof.
  unfold put, wr. destruct (decide (i < length (vars s))); cbn; [|done]. intros H. injection H as <-. done.
Qed.
Lemma finish_vars s i o h s' : finish s i (Some (o, h)) = Some (Done s') -> heap s' = h /\ vars s' = <[i := Some o]> (vars s) /\ i < length (vars s).
Proof. cbn. destruct (put s i h (Some o)) as [s1|] eqn:E; cbn; [|done]. intros H. injection H as <-. by apply put_vars in E. Qed.
Lemma finish_thrown s i s' : finish s i None <> Some (Done s').
Proof. done. Qed.
Lemma free_slot_vars s i : free_slot s i = Some tt -> vars s !! i = Some None.
Proof. unfold free_slot. destruct (vars s !! i) as [[?|]|]; by try done. Qed.
Lemma get_vars s i o : get s i = Some o -> vars s !! i = Some (Some o).
Proof. unfold get. destruct (vars s !! i) as [x|]; cbn; [|done]. by intros ->. Qed.

(** A block that an object in variable [i] points to belongs to no other. *)
Lemma other s A i j o o' q : holds s A -> vars s !! i = Some (Some o) -> fst o = Some q -> vars s !! j = Some (Some o') -> j <> i -> fst o' <> Some q.
Proof.
  intros H Hi Hq Hj Hne Hq'. apply Hne. destruct o as [x n], o' as [x' n']. cbn in Hq, Hq'. subst. eapply (holds_alone _ _ H); [by exists n'|by exists n].
Qed.

Lemma exec_follow o s s' A i k x : holds s A -> exec alloc garbage o s = Some (Done s') -> follow o i = Some k -> vars s !! i = Some (Some x) ->
  vars s' !! k = Some (Some x) /\ forall p, fst x = Some p -> heap s' !! p = heap s !! p.
Proof.
  intros H E F Hi.
  assert (forall p, fst x = Some p -> is_Some (heap s !! p)) as Hb.
  { intros p Hp. destruct x as [x n]. cbn in Hp. subst x. destruct (owned_block s A i p H) as [d Hd]; [by exists n|]. by exists d. }
  assert (forall j o h', j <> i -> vars s !! j = Some (Some o) -> kept (fst o) (heap s) h' -> forall p, fst x = Some p -> h' !! p = heap s !! p) as Hother.
  { intros j o' h' Hj Ho Hk p Hp. apply Hk; [by apply Hb|]. exact (other s A i j x o' p H Hi Hp Ho Hj). }
  assert (forall h', kept None (heap s) h' -> forall p, fst x = Some p -> h' !! p = heap s !! p) as Hnew.
  { intros h' Hk p Hp. apply Hk; [by apply Hb|done]. }
  assert (forall j, free_slot s j = Some tt -> j <> i) as Hfree.
  { intros j Hj ->. apply free_slot_vars in Hj. congruence. }
  destruct o as [j|j n b|j n f|r j|r j|j|r j|r j|a b|j n b|j n|j f|f j j'|f r j j'|f r j j']; cbn [exec] in E; cbn [follow] in F; cbv zeta in F.
  - (* VDefault *) destruct (free_slot s j) as [[]|] eqn:Ef; [|done]. rewrite bind_S in E. injection F as <-. apply Hfree in Ef.
    apply finish_vars in E as (Eh & Ev & _). rewrite Ev, Eh, list_lookup_insert_ne by done. done.
  - (* VNew *) destruct (free_slot s j) as [[]|] eqn:Ef; [|done]. rewrite bind_S in E. injection F as <-. apply Hfree in Ef.
    destruct (bv_new n b) as [v|]; [|done]. rewrite bind_S in E. destruct (construct alloc v (heap s)) as [[[o h]|]|] eqn:Ec; try done. rewrite bind_S in E.
    apply finish_vars in E as (Eh & Ev & _). rewrite Ev, Eh, list_lookup_insert_ne by done. split; [done|]. apply Hnew. by eapply construct_kept.
  - (* VMake *) destruct (free_slot s j) as [[]|] eqn:Ef; [|done]. rewrite bind_S in E. injection F as <-. apply Hfree in Ef.
    destruct (make_bit_vector _ n f) as [v|]; [|done]. rewrite bind_S in E. destruct (construct alloc v (heap s)) as [[[o h]|]|] eqn:Ec; try done. rewrite bind_S in E.
    apply finish_vars in E as (Eh & Ev & _). rewrite Ev, Eh, list_lookup_insert_ne by done. split; [done|]. apply Hnew. by eapply construct_kept.
  - (* VCopy *) destruct (free_slot s r) as [[]|] eqn:Ef; [|done]. rewrite bind_S in E. injection F as <-. apply Hfree in Ef.
    destruct (get s j) as [o'|]; [|done]. rewrite bind_S in E. destruct (copy_object alloc o' (heap s)) as [[[o h]|]|] eqn:Ec; try done. rewrite bind_S in E.
    apply finish_vars in E as (Eh & Ev & _). rewrite Ev, Eh, list_lookup_insert_ne by done. split; [done|]. apply Hnew. by eapply copy_kept.
  - (* VMove *) destruct (free_slot s r) as [[]|] eqn:Ef; [|done]. rewrite bind_S in E. apply Hfree in Ef.
    destruct (get s j) as [o'|] eqn:Eg; [|done]. rewrite bind_S in E. cbn [move_object] in E. unfold move_object in E. apply get_vars in Eg.
    destruct (put s r (heap s) (Some o')) as [s1|] eqn:E1; [|done]. rewrite bind_S in E. apply put_vars in E1 as (Eh1 & Ev1 & L1).
    destruct (put s1 j (heap s1) (Some (None, 0))) as [s2|] eqn:E2; [|done]. rewrite bind_S in E. apply put_vars in E2 as (Eh2 & Ev2 & L2). injection E as <-.
    rewrite Eh2, Eh1, Ev2, Ev1. split; [|done]. destruct (decide (j = i)) as [-> |Hj].
    + injection F as <-. rewrite list_lookup_insert_ne by done. rewrite Eg in Hi. injection Hi as ->. by apply list_lookup_insert.
    + injection F as <-. by rewrite !list_lookup_insert_ne by done.
  - (* VDestroy *) destruct (decide (j = i)) as [|Hj]; [done|]. injection F as <-. destruct (get s j) as [o'|] eqn:Eg; [|done]. rewrite bind_S in E. apply get_vars in Eg.
    destruct (release (fst o') (heap s)) as [h|] eqn:Er; [|done]. rewrite bind_S in E. destruct (put s j h None) as [s1|] eqn:E1; [|done]. rewrite bind_S in E. injection E as <-.
    apply put_vars in E1 as (Eh & Ev & _). rewrite Ev, Eh, list_lookup_insert_ne by done. split; [done|]. eapply Hother; [done|done|by apply release_kept].
  - (* VAssign *) destruct (decide (r = i)) as [|Hr]; [done|]. injection F as <-. destruct (get s j) as [o1|]; [|done]. rewrite bind_S in E.
    destruct (get s r) as [old|] eqn:Eg; [|done]. rewrite bind_S in E. apply get_vars in Eg.
    destruct (copy_object alloc o1 (heap s)) as [[[o h]|]|] eqn:Ec; try done. rewrite bind_S in E.
    destruct (release (fst old) h) as [h1|] eqn:Er; [|done]. rewrite bind_S in E. destruct (put s r h1 (Some o)) as [s1|] eqn:E1; [|done]. rewrite bind_S in E. injection E as <-.
    apply put_vars in E1 as (Eh & Ev & _). rewrite Ev, Eh, list_lookup_insert_ne by done. split; [done|].
    eapply Hother; [done|done|]. eapply kept_release; [by eapply copy_kept|done].
  - (* VAssignMove *) destruct (get s j) as [o1|] eqn:Eg; [|done]. rewrite bind_S in E. unfold move_object in E. apply get_vars in Eg.
    destruct (put s j (heap s) (Some (None, 0))) as [s1|] eqn:E1; [|done]. rewrite bind_S in E. apply put_vars in E1 as (Eh1 & Ev1 & L1).
    destruct (get s1 r) as [old|] eqn:Eo; [|done]. rewrite bind_S in E. apply get_vars in Eo.
    destruct (release (fst old) (heap s1)) as [h1|] eqn:Er; [|done]. rewrite bind_S in E.
    destruct (put s1 r h1 (Some o1)) as [s2|] eqn:E2; [|done]. rewrite bind_S in E. injection E as <-. apply put_vars in E2 as (Eh2 & Ev2 & L2). rewrite Eh1 in Er.
    rewrite Ev2, Eh2. destruct (decide (j = i)) as [-> |Hj].
    + injection F as <-. rewrite Eg in Hi. injection Hi as ->. rewrite list_lookup_insert by done. split; [done|].
      destruct (decide (r = i)) as [-> |Hr].
      * rewrite Ev1, list_lookup_insert in Eo by done. injection Eo as <-. cbn in Er. injection Er as <-. done.
      * rewrite Ev1, list_lookup_insert_ne in Eo by done. eapply Hother; [done|done|by apply release_kept].
    + destruct (decide (r = i)) as [|Hr]; [done|]. injection F as <-. rewrite list_lookup_insert_ne by done. rewrite Ev1, list_lookup_insert_ne by done. split; [done|].
      destruct (decide (r = j)) as [-> |Hrj].
      * rewrite Ev1, list_lookup_insert in Eo by done. injection Eo as <-. cbn in Er. injection Er as <-. done.
      * rewrite Ev1, list_lookup_insert_ne in Eo by done. eapply Hother; [exact Hr|exact Eo|by apply release_kept].
  - (* VSwap *) destruct (get s a) as [oa|] eqn:Ea; [|done]. rewrite bind_S in E. destruct (get s b) as [ob|] eqn:Eb; [|done]. rewrite bind_S in E. apply get_vars in Ea, Eb.
    destruct (put s a (heap s) (Some ob)) as [s1|] eqn:E1; [|done]. rewrite bind_S in E. apply put_vars in E1 as (Eh1 & Ev1 & L1).
    destruct (put s1 b (heap s1) (Some oa)) as [s2|] eqn:E2; [|done]. rewrite bind_S in E. injection E as <-. apply put_vars in E2 as (Eh2 & Ev2 & L2).
    rewrite Eh2, Eh1, Ev2. split; [|done]. destruct (decide (a = i)) as [-> |Hai].
    + injection F as <-. rewrite list_lookup_insert by done. congruence.
    + destruct (decide (b = i)) as [-> |Hbi].
      * injection F as <-. rewrite list_lookup_insert_ne by done. rewrite Ev1, list_lookup_insert by done. congruence.
      * injection F as <-. rewrite list_lookup_insert_ne by done. by rewrite Ev1, list_lookup_insert_ne by done.
  - (* VResize *) destruct (decide (j = i)) as [|Hj]; [done|]. injection F as <-. destruct (get s j) as [o1|] eqn:Eg; [|done]. rewrite bind_S in E. apply get_vars in Eg.
    destruct (view (heap s) o1) as [v|]; [|done]. rewrite bind_S in E. destruct (bv_resize v n b) as [w|]; [|done]. rewrite bind_S in E.
    destruct (resize_object alloc o1 n w (heap s)) as [[[o h]|]|] eqn:Ec; try done. rewrite bind_S in E.
    apply finish_vars in E as (Eh & Ev & _). rewrite Ev, Eh, list_lookup_insert_ne by done. split; [done|]. eapply Hother; [done|done|by eapply resize_kept].
  - (* VResizeUninit *) destruct (decide (j = i)) as [|Hj]; [done|]. injection F as <-. destruct (get s j) as [o1|] eqn:Eg; [|done]. rewrite bind_S in E. apply get_vars in Eg.
    destruct (view (heap s) o1) as [v|]; [|done]. rewrite bind_S in E. destruct (bv_resize_uninit _ v n) as [w|]; [|done]. rewrite bind_S in E.
    destruct (resize_object alloc o1 n w (heap s)) as [[[o h]|]|] eqn:Ec; try done. rewrite bind_S in E.
    apply finish_vars in E as (Eh & Ev & _). rewrite Ev, Eh, list_lookup_insert_ne by done. split; [done|]. eapply Hother; [done|done|by eapply resize_kept].
  - (* VInplace *) destruct (decide (j = i)) as [|Hj]; [done|]. injection F as <-. destruct (get s j) as [o1|] eqn:Eg; [|done]. rewrite bind_S in E. apply get_vars in Eg.
    destruct (view (heap s) o1) as [v|]; [|done]. rewrite bind_S in E. destruct (inplace_call f v) as [w|]; [|done]. rewrite bind_S in E.
    destruct (store o1 w (heap s)) as [[o h]|] eqn:Ec; [|done]. rewrite bind_S in E.
    apply finish_vars in E as (Eh & Ev & _). rewrite Ev, Eh, list_lookup_insert_ne by done. split; [done|]. eapply Hother; [done|done|by eapply store_kept].
  - (* VCombine *) destruct (decide (j = i)) as [|Hj]; [done|]. injection F as <-. destruct (get s j) as [o1|] eqn:Eg; [|done]. rewrite bind_S in E. apply get_vars in Eg.
    destruct (view (heap s) o1) as [v|]; [|done]. rewrite bind_S in E. destruct (get s j') as [o2|]; [|done]. rewrite bind_S in E.
    destruct (view (heap s) o2) as [w|]; [|done]. rewrite bind_S in E. destruct (binary_call f v w) as [u|]; [|done]. rewrite bind_S in E.
    destruct (store o1 u (heap s)) as [[o h]|] eqn:Ec; [|done]. rewrite bind_S in E.
    apply finish_vars in E as (Eh & Ev & _). rewrite Ev, Eh, list_lookup_insert_ne by done. split; [done|]. eapply Hother; [done|done|by eapply store_kept].
  - (* VBinary *) destruct (free_slot s r) as [[]|] eqn:Ef; [|done]. rewrite bind_S in E. injection F as <-. apply Hfree in Ef.
    destruct (get s j) as [o1|]; [|done]. rewrite bind_S in E. destruct (get s j') as [o2|]; [|done]. rewrite bind_S in E.
    destruct (view (heap s) o2) as [w|]; [|done]. rewrite bind_S in E. destruct (copy_object alloc o1 (heap s)) as [[[c h]|]|] eqn:Ec; try done. rewrite bind_S in E.
    destruct (view h c) as [v|]; [|done]. rewrite bind_S in E. destruct (binary_call f v w) as [u|]; [|done]. rewrite bind_S in E.
    destruct (store c u h) as [[o h1]|] eqn:Es; [|done]. rewrite bind_S in E.
    apply finish_vars in E as (Eh & Ev & _). rewrite Ev, Eh, list_lookup_insert_ne by done. split; [done|].
    intros p Hp. assert (h !! p = heap s !! p) as E1 by (apply (copy_kept _ _ _ _ Ec); [by apply Hb|done]). rewrite <- E1.
    apply (store_kept _ _ _ _ _ Es); [rewrite E1; by apply Hb|].
    (* the copy has a block of its own *)
    intros Hc. destruct (Hb p Hp) as [d Hd]. clear -Ec Hc Hd. unfold copy_object in Ec. destruct (view (heap s) o1) as [v|]; [|done]. rewrite bind_S in Ec.
    destruct (bv_copy true v) as [w|]; [|done]. rewrite bind_S in Ec. unfold construct in Ec. destruct (bv_null w); [injection Ec as <- <-; done|].
    unfold allocate in Ec. destruct (alloc _ _) as [p'|]; [|done]. destruct (heap s !! p') eqn:E0; [done|]. cbn in Ec. injection Ec as <- <-. cbn in Hc. congruence.
  - (* VBinaryMove *) destruct (decide (j = i)) as [|Hj]; [done|]. injection F as <-. destruct (free_slot s r) as [[]|] eqn:Ef; [|done]. rewrite bind_S in E. apply Hfree in Ef.
    destruct (get s j) as [o1|] eqn:Eg; [|done]. rewrite bind_S in E. apply get_vars in Eg. destruct (view (heap s) o1) as [v|]; [|done]. rewrite bind_S in E.
    destruct (get s j') as [o2|]; [|done]. rewrite bind_S in E.
    destruct (view (heap s) o2) as [w|]; [|done]. rewrite bind_S in E. destruct (binary_call f v w) as [u|]; [|done]. rewrite bind_S in E.
    destruct (store o1 u (heap s)) as [[o h]|] eqn:Es; [|done]. rewrite bind_S in E. unfold move_object in E.
    destruct (put s r h (Some o)) as [s1|] eqn:E1; [|done]. rewrite bind_S in E. apply put_vars in E1 as (Eh1 & Ev1 & L1).
    destruct (put s1 j h (Some (None, 0))) as [s2|] eqn:E2; [|done]. rewrite bind_S in E. injection E as <-. apply put_vars in E2 as (Eh2 & Ev2 & L2).
    rewrite Eh2, Ev2, Ev1. rewrite !list_lookup_insert_ne by done. split; [done|]. eapply Hother; [done|done|by eapply store_kept].
Qed.

Lemma executes_follow s os ts s' A A' i k x : allocator alloc -> words_of_memory garbage -> holds s A ->
  executes alloc garbage s os ts s' -> mean os ts A = Some A' -> follow_all os ts i = Some k -> vars s !! i = Some (Some x) ->
  vars s' !! k = Some (Some x) /\ forall p, fst x = Some p -> heap s' !! p = heap s !! p.
Proof.
  intros Ha Hg H He. revert A i H. induction He as [s|s o os s1 ts s2 E He IH|s o os s1 ts s2 E He IH]; intros A i H Hm F Hi.
  - cbn in F. injection F as <-. done.
  - cbn in Hm, F. destruct (means o A) as [A1|] eqn:Em; [|done]. destruct (follow o i) as [i1|] eqn:Ef; [|done].
    destruct (exec_follow o s s1 A i i1 x H E Ef Hi) as [Hi1 Hh1].
    destruct (exec_spec _ _ Ha Hg _ _ _ _ H Em) as (out & Eo & Hr). rewrite E in Eo. injection Eo as <-. cbn in Hr.
    destruct (IH A1 i1 Hr Hm F Hi1) as [Hk Hh]. split; [done|]. intros p Hp. by rewrite Hh, Hh1.
  - cbn in Hm, F. destruct (means o A) as [A1|] eqn:Em; [|done].
    destruct (exec_spec _ _ Ha Hg _ _ _ _ H Em) as (out & Eo & Hr). rewrite E in Eo. injection Eo as <-. cbn in Hr. destruct Hr as [-> _]. eauto.
Qed.
End ops.

(** A mapper whose block is the one it was built for *)
Lemma make_mapper_spec s A i l : holds s A -> val A i = Some l -> exists o v m0,
  vars s !! i = Some (Some o) /\ view (heap s) o = Some v /\ bv_rep v l /\ new_mapper (bv_size v) (bv_data v) = Some m0 /\
  make_mapper s i = Some (mkPmapper (fst o) (bit_count_ m0) (rank_ m0) (select_ m0)) /\
  (forall h, (forall p, fst o = Some p -> h !! p = heap s !! p) -> deref h (mkPmapper (fst o) (bit_count_ m0) (rank_ m0) (select_ m0)) = m0).
Proof.
  intros H Hv. apply val_Some in Hv. destruct (get_of s A i l H Hv) as (o & v & Hi & Hg & Hw & Hr).
  destruct (new_mapper_spec v l Hr) as (m0 & Em & _). exists o, v, m0. split; [done|]. split; [done|]. split; [done|]. split; [done|]. split.
  - unfold make_mapper. rewrite Hg, bind_S, Hw, bind_S, Em, bind_S. done.
  - intros h Hh. assert (bits_ m0 = bv_data v) as Eb.
    { unfold new_mapper in Em. destruct (build_rank _ _) as [rank|]; [|done]. rewrite bind_S in Em. destruct (build_select _ _) as [sel|]; [|done].
      rewrite bind_S in Em. injection Em as <-. done. }
    unfold deref. cbn [p_bits p_count p_rank p_select]. unfold view in Hw. destruct o as [[p|] n]; cbn [fst snd] in *.
    + rewrite (Hh p eq_refl). destruct (heap s !! p) as [d|]; [|done]. cbn in Hw. injection Hw as <-. cbn in Eb. cbn. rewrite <- Eb. by destruct m0.
    + injection Hw as <-. cbn in Eb. rewrite <- Eb. by destruct m0.
Qed.
