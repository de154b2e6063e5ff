(** The triangle enumerations visit exactly the triangles of an arc. *)
From Verif Require Import Base GraphSpec PathSpec WalkSpec CchModel CchSpec.
Ltac Zify.zify_post_hook ::= idtac.

(** Run [f] on the elements of a list until it returns false. *)
Fixpoint for_until {A St} (l : list A) (f : A -> St -> option (St * bool)) (s : St) : option (St * bool) :=
  match l with
  | [] => Some (s, true)
  | x :: l => '(s, go) ← f x s; if (go : bool) then for_until l f s else Some (s, false)
  end.

Lemma for_until_ext {A St} (l : list A) (f g : A -> St -> option (St * bool)) s :
  (forall x s, x ∈ l -> f x s = g x s) -> for_until l f s = for_until l g s.
Proof.
  revert s. induction l as [|x l IH]; intros s H; [done|]. cbn [for_until]. rewrite H by constructor.
  destruct (g x s) as [[s' []]|]; cbn; [|done|done]. apply IH. intros. apply H. by constructor.
Qed.
Lemma for_until_map {A B St} (h : A -> B) (l : list A) (f : B -> St -> option (St * bool)) s :
  for_until (h <$> l) f s = for_until l (fun x => f (h x)) s.
Proof.
  revert s. induction l as [|x l IH]; intros s; [done|]. cbn [for_until fmap list_fmap].
  destruct (f (h x) s) as [[s' []]|]; cbn; [apply IH|done|done].
Qed.
(** If [f] never stops. *)
Lemma for_until_inv {A St} (P : list A -> St -> Prop) (l : list A) f s :
  P [] s ->
  (forall pre x post s, l = pre ++ x :: post -> P pre s -> exists s', f x s = Some (s', true) /\ P (pre ++ [x]) s') ->
  exists s', for_until l f s = Some (s', true) /\ P l s'.
Proof.
  intros HP Hstep.
  cut (forall post pre s, l = pre ++ post -> P pre s ->
        exists s', for_until post f s = Some (s', true) /\ P l s').
  { intros H. apply (H l []); done. }
  induction post as [|x post IH]; intros pre s1 Hl HP1; cbn [for_until].
  - rewrite app_nil_r in Hl; subst. eauto.
  - destruct (Hstep pre x post s1 Hl HP1) as (s2 & Hs2 & HP2).
    rewrite Hs2. cbn. apply (IH (pre ++ [x])); [|done].
    rewrite <- app_assoc. done.
Qed.
(** Searching. *)
Lemma for_until_find {A B} (l : list A) (test : A -> option bool) (g : A -> B) (f : A -> option B -> option (option B * bool)) :
  (forall x s, x ∈ l -> exists b, test x = Some b /\ f x s = Some (if (b : bool) then (Some (g x), false) else (s, true))) ->
  (for_until l f None = Some (None, true) /\ forall x, x ∈ l -> test x = Some false) \/
  exists x, x ∈ l /\ test x = Some true /\ for_until l f None = Some (Some (g x), false).
Proof.
  induction l as [|x l IH]; intros H.
  - left. split; [done|]. by intros ? ?%elem_of_nil.
  - destruct (H x None) as (b & Hb & Hf); [constructor|]. cbn [for_until]. rewrite Hf. destruct b; cbn.
    + right. exists x. split; [constructor|done].
    + destruct IH as [[H1 H2]|(y & Hy & H1 & H2)].
      * intros. apply H. by constructor.
      * left. split; [done|]. intros y [->|Hy]%elem_of_cons; [done|eauto].
      * right. exists y. split; [by constructor|done].
Qed.

Definition strict_on (h : list nat) (i ie : nat) : Prop :=
  forall a b x y, i <= a -> a < b -> b < ie -> h !! a = Some x -> h !! b = Some y -> x < y.

(** The merge visits the common heads. *)
Lemma merge_arcs_list h1 h2 fuel i ie j je :
  strict_on h1 i ie -> strict_on h2 j je -> i <= ie <= length h1 -> j <= je <= length h2 ->
  (ie - i) + (je - j) <= fuel ->
  exists l : list (nat * nat * nat),
    (forall z a b, (z, a, b) ∈ l <-> i <= a < ie /\ j <= b < je /\ h1 !! a = Some z /\ h2 !! b = Some z) /\
    forall St (f : nat -> nat -> nat -> St -> option (St * bool)) s,
      merge_arcs h1 h2 f fuel i ie j je s = for_until l (fun p => f (fst (fst p)) (snd (fst p)) (snd p)) s.
Proof.
  revert i j. induction fuel as [|fuel IH]; intros i j H1 H2 Hi Hj Hfuel.
  - exists []. split.
    + intros z a b. split; [by intros ?%elem_of_nil|lia].
    + intros St f s. cbn [merge_arcs]. rewrite decide_True by lia. done.
  - destruct (decide (i = ie)) as [->|Hie].
    { exists []. split; [intros; split; [by intros ?%elem_of_nil|lia]|].
      intros. cbn [merge_arcs]. by rewrite decide_True. }
    destruct (decide (j = je)) as [->|Hje].
    { exists []. split; [intros; split; [by intros ?%elem_of_nil|lia]|].
      intros. cbn [merge_arcs]. rewrite decide_False by done. by rewrite decide_True. }
    destruct (lookup_lt_is_Some_2 h1 i) as [x Hx]; [lia|]. destruct (lookup_lt_is_Some_2 h2 j) as [y Hy]; [lia|].
    assert (strict_on h1 (S i) ie) as H1' by (intros a b ? ? ? ?; apply H1; lia).
    assert (strict_on h2 (S j) je) as H2' by (intros a b ? ? ? ?; apply H2; lia).
    destruct (lt_eq_lt_dec x y) as [[Hlt| ->]|Hgt].
    + destruct (IH (S i) j) as (l & Hl & Hf); [done|done|lia|lia|lia|]. exists l. split.
      * intros z a b. rewrite Hl. split; [intros (? & ? & ?); split; [lia|]; split; [lia|done]|]. intros (Ha & Hb & Hza & Hzb).
        split; [|done]. destruct (decide (a = i)) as [->|]; [|lia]. simplify_eq.
        destruct (decide (b = j)) as [->|]; [simplify_eq; lia|].
        specialize (H2 j b y x ltac:(lia) ltac:(lia) ltac:(lia) Hy Hzb). lia.
      * intros. cbn [merge_arcs]. rewrite !decide_False by done. rewrite Hx, bind_S, Hy, bind_S, decide_True by done. apply Hf.
    + destruct (IH (S i) (S j)) as (l & Hl & Hf); [done|done|lia|lia|lia|]. exists ((y, i, j) :: l). split.
      * intros z a b. rewrite elem_of_cons, Hl. split; [intros [[= -> -> ->]|(? & ? & ?)]; (split; [lia|]; split; [lia|done])|]. intros (Ha & Hb & Hza & Hzb).
        destruct (decide (a = i)) as [->|Hai], (decide (b = j)) as [->|Hbj].
        -- left. congruence.
        -- simplify_eq. specialize (H2 j b y y ltac:(lia) ltac:(lia) ltac:(lia) Hy Hzb). lia.
        -- simplify_eq. specialize (H1 i a y y ltac:(lia) ltac:(lia) ltac:(lia) Hx Hza). lia.
        -- right. split; [lia|]. split; [lia|done].
      * intros. cbn [merge_arcs for_until fst snd]. rewrite !(decide_False (P := _ = _)) by done. rewrite Hx, bind_S, Hy, bind_S.
        rewrite !decide_False by lia. destruct (f y i j s) as [[s' []]|]; cbn [mbind option_bind]; [apply Hf|done|done].
    + destruct (IH i (S j)) as (l & Hl & Hf); [done|done|lia|lia|lia|]. exists l. split.
      * intros z a b. rewrite Hl. split; [intros (? & ? & ?); split; [lia|]; split; [lia|done]|]. intros (Ha & Hb & Hza & Hzb).
        split; [done|]. split; [|done]. destruct (decide (b = j)) as [->|]; [|lia]. simplify_eq.
        destruct (decide (a = i)) as [->|]; [simplify_eq; lia|].
        specialize (H1 i a x y ltac:(lia) ltac:(lia) ltac:(lia) Hx Hza). lia.
      * intros. cbn [merge_arcs]. rewrite !(decide_False (P := _ = _)) by done. rewrite Hx, bind_S, Hy, bind_S.
        rewrite decide_False by lia. rewrite decide_True by done. apply Hf.
Qed.

Section Triangles.
  Context (n : nat) (rt rh : list nat) (c : cch) (WF : wf_cch n rt rh c).

  Lemma strict_up x lo hi i : up_first_out c !! x = Some lo -> up_first_out c !! S x = Some hi -> lo <= i -> strict_on (up_head c) i hi.
  Proof.
    intros Hlo Hhi Hi a b u v Ha Hab Hb Hu Hv. eapply (wf_upsorted _ _ _ _ WF a b x); [..|done];
      apply (up_arc_out _ _ _ _ WF); (split; [exists lo, hi; split; [done|]; split; [done|lia]|done]).
  Qed.
  Lemma strict_down x lo hi : down_first_out c !! x = Some lo -> down_first_out c !! S x = Some hi -> strict_on (down_head c) lo hi.
  Proof.
    intros Hlo Hhi a b u v Ha Hab Hb Hu Hv.
    eapply (wf_downsorted _ _ _ _ WF x a b); [| |done..]; exists lo, hi; (split; [done|]; split; [done|lia]).
  Qed.
  Lemma down_arc_ex x y lo hi : down_first_out c !! y = Some lo -> down_first_out c !! S y = Some hi ->
    (exists b, lo <= b < hi /\ down_head c !! b = Some x) <-> exists a, up_arc c a x y.
  Proof.
    intros Hlo Hhi. split.
    - intros (b & Hb & Hx). destruct (wf_down_up _ _ _ _ WF y b x) as (a & _ & Ha); [by exists lo, hi|done|eauto].
    - intros (a & Ha). destruct (wf_up_down _ _ _ _ WF _ _ _ Ha) as (b & (lo' & hi' & ? & ? & ?) & ? & _). simplify_eq. eauto.
  Qed.

  Lemma lower_triangles_list x y xy :
    up_arc c xy x y ->
    exists l : list (nat * nat * nat),
      (forall b mi z, (b, mi, z) ∈ l <-> up_arc c b z x /\ up_arc c mi z y) /\
      forall St (f : triangle_fn St) s,
        forall_lower_triangles c x y xy f s = for_until l (fun p => f (fst (fst p)) (snd (fst p)) xy (snd p) x y) s.
  Proof.
    intros Hxy. pose proof (up_arc_lt _ _ _ _ WF _ _ _ Hxy).
    destruct (csr_range _ _ _ x (wf_down _ _ _ _ WF)) as (x0 & xe & Hx0 & Hxe & Hx); [lia|].
    destruct (csr_range _ _ _ y (wf_down _ _ _ _ WF)) as (y0 & ye & Hy0 & Hye & Hy); [lia|].
    destruct (merge_arcs_list (down_head c) (down_head c) (xe + ye) x0 xe y0 ye) as (l & Hl & Hf);
      [by eapply strict_down|by eapply strict_down|lia|lia|lia|].
    exists ((fun p => (down_to_up c !!! snd (fst p), down_to_up c !!! snd p, fst (fst p))) <$> l). split.
    - intros b mi z. rewrite elem_of_list_fmap. split.
      + intros ([[z' i] j] & [= -> -> ->] & (Hi & Hj & Hzi & Hzj)%Hl). cbn [fst snd].
        destruct (wf_down_up _ _ _ _ WF x i z') as (a & Ha & Haz); [by exists x0, xe|done|].
        destruct (wf_down_up _ _ _ _ WF y j z') as (a' & Ha' & Haz'); [by exists y0, ye|done|].
        by rewrite (list_lookup_total_correct _ _ _ Ha), (list_lookup_total_correct _ _ _ Ha').
      + intros [Hb Hm].
        destruct (wf_up_down _ _ _ _ WF _ _ _ Hb) as (i & (lo & hi & ? & ? & ?) & Hi & Hib).
        destruct (wf_up_down _ _ _ _ WF _ _ _ Hm) as (j & (lo' & hi' & ? & ? & ?) & Hj & Hjb). simplify_eq.
        exists (z, i, j). cbn [fst snd]. rewrite (list_lookup_total_correct _ _ _ Hib), (list_lookup_total_correct _ _ _ Hjb).
        split; [done|]. by apply Hl.
    - intros St f s. unfold forall_lower_triangles. rewrite Hx0, bind_S, Hxe, bind_S, Hy0, bind_S, Hye, bind_S.
      rewrite Hf, for_until_map. apply for_until_ext. intros [[z i] j] s' (Hi & Hj & Hzi & Hzj)%Hl. cbn [fst snd].
      destruct (wf_down_up _ _ _ _ WF x i z) as (a & Ha & Haz); [by exists x0, xe|done|].
      destruct (wf_down_up _ _ _ _ WF y j z) as (a' & Ha' & Haz'); [by exists y0, ye|done|].
      by rewrite (list_lookup_total_correct _ _ _ Ha), (list_lookup_total_correct _ _ _ Ha'), Ha, bind_S, Ha', bind_S.
  Qed.

  Lemma intermediate_triangles_list x y xy :
    up_arc c xy x y ->
    exists l : list (nat * nat * nat),
      (forall b t z, (b, t, z) ∈ l <-> up_arc c b x z /\ up_arc c t z y) /\
      forall St (f : triangle_fn St) s,
        forall_intermediate_triangles c x y xy f s = for_until l (fun p => f (fst (fst p)) xy (snd (fst p)) x (snd p) y) s.
  Proof.
    intros Hxy. pose proof (up_arc_lt _ _ _ _ WF _ _ _ Hxy).
    destruct (csr_range _ _ _ x (wf_up _ _ _ _ WF)) as (x0 & xe & Hx0 & Hxe & Hx); [lia|].
    destruct (csr_range _ _ _ y (wf_down _ _ _ _ WF)) as (y0 & ye & Hy0 & Hye & Hy); [lia|].
    assert (x0 <= xy < xe) as Hrange. { apply (up_arc_out _ _ _ _ WF) in Hxy as [(? & ? & ? & ? & ?) _]. by simplify_eq. }
    destruct (merge_arcs_list (up_head c) (down_head c) (xy + ye) x0 xy y0 ye) as (l & Hl & Hf);
      [|by eapply strict_down|lia|lia|lia|].
    { intros a b u v ? ? ?. eapply (strict_up x x0 xe); [done..|lia|lia]. }
    exists ((fun p => (snd (fst p), down_to_up c !!! snd p, fst (fst p))) <$> l). split.
    - intros b mi z. rewrite elem_of_list_fmap. split.
      + intros ([[z' i] j] & [= -> -> ->] & (Hi & Hj & Hzi & Hzj)%Hl). cbn [fst snd].
        destruct (wf_down_up _ _ _ _ WF y j z') as (a' & Ha' & Haz'); [by exists y0, ye|done|].
        rewrite (list_lookup_total_correct _ _ _ Ha'). split; [|done].
        apply (up_arc_out _ _ _ _ WF). split; [exists x0, xe; split; [done|]; split; [done|lia]|done].
      + intros [Hb Hm]. pose proof (up_arc_lt _ _ _ _ WF _ _ _ Hm).
        assert (x0 <= b < xe) as Hbr. { apply (up_arc_out _ _ _ _ WF) in Hb as [(? & ? & ? & ? & ?) _]. by simplify_eq. }
        destruct (wf_up_down _ _ _ _ WF _ _ _ Hm) as (j & (lo' & hi' & ? & ? & ?) & Hj & Hjb). simplify_eq.
        exists (z, b, j). cbn [fst snd]. rewrite (list_lookup_total_correct _ _ _ Hjb).
        split; [done|]. apply Hl. split; [|split; [done|split; [apply Hb|done]]]. split; [lia|].
        destruct (lt_eq_lt_dec b xy) as [[?| ->]|Hlt]; [done| |].
        * destruct (up_arc_fun _ _ _ _ _ _ Hb Hxy). lia.
        * pose proof (wf_upsorted _ _ _ _ WF _ _ _ _ _ Hxy Hb Hlt). lia.
    - intros St f s. unfold forall_intermediate_triangles. rewrite Hx0, bind_S, Hy0, bind_S, Hye, bind_S.
      rewrite Hf, for_until_map. apply for_until_ext. intros [[z i] j] s' (Hi & Hj & Hzi & Hzj)%Hl. cbn [fst snd].
      destruct (wf_down_up _ _ _ _ WF y j z) as (a' & Ha' & Haz'); [by exists y0, ye|done|].
      by rewrite (list_lookup_total_correct _ _ _ Ha'), Ha', bind_S.
  Qed.

  Lemma upper_triangles_list x y xy :
    up_arc c xy x y ->
    exists l : list (nat * nat * nat),
      (forall mi t z, (mi, t, z) ∈ l <-> up_arc c mi x z /\ up_arc c t y z) /\
      forall St (f : triangle_fn St) s,
        forall_upper_triangles c x y xy f s = for_until l (fun p => f xy (fst (fst p)) (snd (fst p)) x y (snd p)) s.
  Proof.
    intros Hxy. pose proof (up_arc_lt _ _ _ _ WF _ _ _ Hxy).
    destruct (csr_range _ _ _ x (wf_up _ _ _ _ WF)) as (x0 & xe & Hx0 & Hxe & Hx); [lia|].
    destruct (csr_range _ _ _ y (wf_up _ _ _ _ WF)) as (y0 & ye & Hy0 & Hye & Hy); [lia|].
    assert (x0 <= xy < xe) as Hrange. { apply (up_arc_out _ _ _ _ WF) in Hxy as [(? & ? & ? & ? & ?) _]. by simplify_eq. }
    destruct (merge_arcs_list (up_head c) (up_head c) (xe + ye) (S xy) xe y0 ye) as (l & Hl & Hf);
      [eapply (strict_up x x0 xe); [done..|lia]|eapply (strict_up y y0 ye); [done..|lia]|lia|lia|lia|].
    exists ((fun p => (snd (fst p), snd p, fst (fst p))) <$> l). split.
    - intros b mi z. rewrite elem_of_list_fmap. split.
      + intros ([[z' i] j] & [= -> -> ->] & (Hi & Hj & Hzi & Hzj)%Hl). cbn [fst snd].
        split; apply (up_arc_out _ _ _ _ WF); (split; [|done]);
          [exists x0, xe|exists y0, ye]; (split; [done|]; split; [done|lia]).
      + intros [Hb Hm]. pose proof (up_arc_lt _ _ _ _ WF _ _ _ Hm).
        assert (x0 <= b < xe) as Hbr. { apply (up_arc_out _ _ _ _ WF) in Hb as [(? & ? & ? & ? & ?) _]. by simplify_eq. }
        assert (y0 <= mi < ye) as Hmr. { apply (up_arc_out _ _ _ _ WF) in Hm as [(? & ? & ? & ? & ?) _]. by simplify_eq. }
        exists (z, b, mi). split; [done|]. apply Hl. split; [|split; [done|split; [apply Hb|apply Hm]]]. split; [|lia].
        destruct (lt_eq_lt_dec b xy) as [[Hlt| ->]|Hlt]; [| |done].
        * pose proof (wf_upsorted _ _ _ _ WF _ _ _ _ _ Hb Hxy Hlt). lia.
        * destruct (up_arc_fun _ _ _ _ _ _ Hb Hxy). lia.
    - intros St f s. unfold forall_upper_triangles. rewrite Hxe, bind_S, Hy0, bind_S, Hye, bind_S.
      rewrite Hf, for_until_map. apply for_until_ext. intros [[z i] j] s' _. done.
  Qed.
End Triangles.
