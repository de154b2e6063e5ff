(** * The invariant of Tarjan's algorithm and its preservation (C18)

    The arrays of the algorithm appear as functions here; SccProofs.v connects
    them to the model. *)
From stdpp Require Import relations.
From Verif Require Import Base.

(** Strictly increasing values of [f] along a list. *)
Fixpoint incr (f : nat -> nat) (l : list nat) : Prop :=
  match l with [] => True | u :: l => (forall v, v ∈ l -> f u < f v) /\ incr f l end.

Lemma incr_app f l1 l2 : incr f (l1 ++ l2) <->
  incr f l1 /\ incr f l2 /\ forall u v, u ∈ l1 -> v ∈ l2 -> f u < f v.
Proof.
  induction l1 as [|u l1 IH]; cbn.
  - split; [|tauto]. intros H. split; [done|]. split; [done|]. intros ? ? H1. by apply elem_of_nil in H1.
  - rewrite IH. split.
    + intros (H1 & H2 & H3 & H4). split; [split; [|done]|split; [done|]].
      * intros v Hv. apply H1. apply elem_of_app. by left.
      * intros x v Hx Hv. apply elem_of_cons in Hx as [->|Hx]; [|by apply H4].
        apply H1. apply elem_of_app. by right.
    + intros ((H1 & H2) & H3 & H4). split; [|split; [done|split; [done|]]].
      * intros v Hv. apply elem_of_app in Hv as [Hv|Hv]; [by apply H1|]. apply H4; [left|done].
      * intros x v Hx Hv. apply H4; [by right|done].
Qed.

Lemma incr_ext f g l : (forall x, x ∈ l -> f x = g x) -> incr f l -> incr g l.
Proof.
  induction l as [|u l IH]; intros H; cbn; [done|]. intros [H1 H2]. split.
  - intros v Hv. rewrite <- !H; [by apply H1|by right|left].
  - apply IH; [|done]. intros x Hx. apply H. by right.
Qed.

Lemma incr_NoDup f l : incr f l -> NoDup l.
Proof.
  induction l as [|u l IH]; cbn; [constructor|]. intros [H1 H2]. constructor; [|by apply IH].
  intros H. apply H1 in H. lia.
Qed.

Lemma incr_top f P x p : incr f (P ++ [x]) -> p ∈ P ++ [x] -> f p <= f x.
Proof.
  intros Hi Hp. apply incr_app in Hi as (_ & _ & Hi).
  apply elem_of_app in Hp as [Hp|Hp].
  - apply Nat.lt_le_incl, Hi; [done|]. by apply elem_of_list_singleton.
  - apply elem_of_list_singleton in Hp as ->. done.
Qed.

Section inv.
Context (n : nat) (fst lst hd : nat -> nat).

Definition aedge (x y : nat) : Prop := exists a, x < n /\ fst x <= a < lst x /\ hd a = y.
Definition areach : nat -> nat -> Prop := rtc aedge.

Record ast := Ast {
  num : nat -> option nat; low : nat -> nat; nxt : nat -> nat;
  don : nat -> bool; cmp : nat -> nat; pre : nat; cnt : nat }.

Definition nu (a : ast) (x : nat) : nat := default 0 (num a x).
Definition vis (a : ast) (x : nat) : Prop := num a x <> None.

(** What is known about the low link of a node on the path, once the arc to which
    [nxt] points is taken into account. *)
Definition elow_le (a : ast) (St : list nat) (p k : nat) : Prop :=
  low a p <= k \/ (nxt a p < lst p /\ hd (nxt a p) ∈ St /\ low a (hd (nxt a p)) <= k).

Record inv (a : ast) (P St : list nat) : Prop := {
  i_num_lt : forall x k, num a x = Some k -> k < pre a /\ x < n;
  i_num_inj : forall x y k, num a x = Some k -> num a y = Some k -> x = y;
  i_S : forall x, x ∈ St <-> vis a x /\ don a x = false;
  i_Sinc : incr (nu a) St;
  i_done : forall x, don a x = true -> vis a x;
  i_P : forall x, x ∈ P -> x ∈ St;
  i_Pinc : incr (nu a) P;
  i_chain : forall i u v, P !! i = Some u -> P !! S i = Some v ->
    nxt a u < lst u /\ hd (nxt a u) = v;
  i_nxt : forall x, x < n -> fst x <= nxt a x <= lst x;
  i_scanned : forall x e, x < n -> fst x <= e < nxt a x -> vis a (hd e);
  i_fin : forall x, vis a x -> x ∉ P -> nxt a x = lst x;
  i_low : forall x, x ∈ St -> low a x <= nu a x /\
    exists z, z ∈ St /\ nu a z = low a x /\ areach x z;
  i_lowfin : forall x, x ∈ St -> x ∉ P -> low a x < nu a x;
  i_up : forall v, v ∈ St -> exists p, p ∈ P /\ nu a p <= nu a v /\ areach v p;
  i_down : forall p v, p ∈ P -> v ∈ St -> nu a p <= nu a v -> areach p v;
  i_low_all : forall p v e, p ∈ P -> v ∈ St -> nu a p <= nu a v ->
    fst v <= e < nxt a v -> hd e ∈ St ->
    nu a p <= nu a (hd e) \/ exists p', p' ∈ P /\ nu a p <= nu a p' /\ elow_le a St p' (nu a (hd e));
  i_closed : forall x y, don a x = true -> aedge x y -> don a y = true;
  i_cmp_lt : forall x, don a x = true -> cmp a x < cnt a;
  i_cmp : forall x y, don a x = true -> don a y = true ->
    (cmp a x = cmp a y <-> areach x y /\ areach y x);
  i_topo : forall x y, don a x = true -> aedge x y -> cmp a y <= cmp a x;
  i_all : forall c, c < cnt a -> exists x, don a x = true /\ cmp a x = c
}.

Lemma vis_lt a P St x : inv a P St -> vis a x -> x < n.
Proof. intros H Hv. unfold vis in Hv. destruct (num a x) eqn:E; [|done]. by eapply i_num_lt. Qed.

Lemma S_lt a P St x : inv a P St -> x ∈ St -> x < n.
Proof. intros H Hx. eapply vis_lt; [done|]. by apply (i_S _ _ _ H). Qed.

Lemma S_nu_lt a P St x : inv a P St -> x ∈ St -> nu a x < pre a.
Proof.
  intros H Hx. apply (i_S _ _ _ H) in Hx as [Hv _]. unfold vis, nu in *.
  destruct (num a x) eqn:E; [|done]. cbn. by eapply i_num_lt.
Qed.

Lemma S_nu_inj a P St x y : inv a P St -> x ∈ St -> y ∈ St -> nu a x = nu a y -> x = y.
Proof.
  intros H Hx Hy. apply (i_S _ _ _ H) in Hx as [Hx _]. apply (i_S _ _ _ H) in Hy as [Hy _].
  unfold vis, nu in *. destruct (num a x) eqn:E; [|done]. destruct (num a y) eqn:E'; [|done].
  cbn. intros ->. by eapply i_num_inj.
Qed.

Lemma top_max a P0 x St p : inv a (P0 ++ [x]) St -> p ∈ P0 ++ [x] -> nu a p <= nu a x.
Proof.
  intros H Hp. pose proof (i_Pinc _ _ _ H) as Hi. apply incr_app in Hi as (_ & _ & Hi).
  apply elem_of_app in Hp as [Hp|Hp].
  - apply Nat.lt_le_incl, Hi; [done|]. by apply elem_of_list_singleton.
  - apply elem_of_list_singleton in Hp as ->. done.
Qed.

Lemma top_notin a P0 x St : inv a (P0 ++ [x]) St -> x ∉ P0.
Proof.
  intros H Hx. pose proof (i_Pinc _ _ _ H) as Hi. apply incr_app in Hi as (_ & _ & Hi).
  specialize (Hi x x Hx). rewrite elem_of_list_singleton in Hi. specialize (Hi eq_refl). lia.
Qed.

Lemma don_reach a P St x y : inv a P St -> don a x = true -> areach x y -> don a y = true.
Proof.
  intros H Hd Hr. induction Hr as [|x y z He Hr IH]; [done|]. apply IH.
  by eapply i_closed.
Qed.

(** The initial state. *)
Lemma inv_init a :
  (forall x, x < n -> fst x <= lst x) ->
  (forall x, num a x = None) -> (forall x, don a x = false) -> cnt a = 0 ->
  (forall x, x < n -> nxt a x = fst x) ->
  inv a [] [].
Proof.
  intros Hfl H1 H2 H3 H4.
  assert (Hv : forall x, ~ vis a x) by (intros x Hx; apply Hx, H1).
  assert (Hd : forall x, don a x <> true) by (intros x; rewrite H2; done).
  assert (Hn : forall x, x ∉ @nil nat) by (intros x Hx; by apply elem_of_nil in Hx).
  split.
  - intros x k. by rewrite H1.
  - intros x y k. by rewrite H1.
  - intros x. split; [intros Hx; by apply Hn in Hx|intros [Hx _]; by apply Hv in Hx].
  - done.
  - intros x Hx. by apply Hd in Hx.
  - done.
  - done.
  - intros i u v Hu. by rewrite lookup_nil in Hu.
  - intros x Hx. rewrite H4 by done. specialize (Hfl x Hx). lia.
  - intros x e Hx. rewrite H4 by done. lia.
  - intros x Hx. by apply Hv in Hx.
  - intros x Hx. by apply Hn in Hx.
  - intros x Hx. by apply Hn in Hx.
  - intros x Hx. by apply Hn in Hx.
  - intros p v Hx. by apply Hn in Hx.
  - intros p v e Hx. by apply Hn in Hx.
  - intros x y Hx. by apply Hd in Hx.
  - intros x Hx. by apply Hd in Hx.
  - intros x y Hx. by apply Hd in Hx.
  - intros x y Hx. by apply Hd in Hx.
  - intros c. rewrite H3. lia.
Qed.

(** Visiting a new node: lines 36-42. *)
Lemma inv_visit a a' P St w :
  inv a P St -> num a w = None -> w < n ->
  (P = [] \/ exists P0 x, P = P0 ++ [x] /\ nxt a x < lst x /\ hd (nxt a x) = w) ->
  nxt a w = fst w ->
  (forall y, num a' y = if decide (y = w) then Some (pre a) else num a y) ->
  (forall y, low a' y = if decide (y = w) then pre a else low a y) ->
  (forall y, nxt a' y = nxt a y) -> (forall y, don a' y = don a y) ->
  (forall y, cmp a' y = cmp a y) -> pre a' = S (pre a) -> cnt a' = cnt a ->
  inv a' (P ++ [w]) (St ++ [w]).
Proof.
  intros H Hw Hwn HP Hfw Enum Elow Enxt Edon Ecmp Epre Ecnt.
  assert (HwS : w ∉ St) by (intros Hc; apply (i_S _ _ _ H) in Hc as [Hc _]; by apply Hc).
  assert (HwP : w ∉ P) by (intros Hc; apply HwS; by apply (i_P _ _ _ H)).
  assert (Hwd : don a w = false).
  { destruct (don a w) eqn:E; [|done]. apply (i_done _ _ _ H) in E. by destruct E. }
  assert (Hvis : forall y, vis a' y <-> vis a y \/ y = w).
  { intros y. unfold vis. rewrite Enum. case_decide; naive_solver. }
  assert (Nw : nu a' w = pre a) by (unfold nu; rewrite Enum, decide_True; done).
  assert (Nne : forall y, y <> w -> nu a' y = nu a y).
  { intros y Hy. unfold nu. by rewrite Enum, decide_False. }
  assert (NS : forall y, y ∈ St -> nu a' y = nu a y).
  { intros y Hy. apply Nne. by intros ->. }
  assert (Lw : low a' w = pre a) by (rewrite Elow, decide_True; done).
  assert (LS : forall y, y ∈ St -> low a' y = low a y).
  { intros y Hy. rewrite Elow, decide_False; [done|]. by intros ->. }
  assert (Hlt : forall y, y ∈ St -> nu a' y < pre a).
  { intros y Hy. rewrite NS by done. by eapply S_nu_lt. }
  assert (Hsn : forall (l : list nat) y, y ∈ l ++ [w] <-> y ∈ l \/ y = w).
  { intros l y. by rewrite elem_of_app, elem_of_list_singleton. }
  assert (Hpw : forall p, p ∈ P -> areach p w).
  { intros p Hp. destruct HP as [->|(P0 & x & -> & Hx & Ew)]; [by apply elem_of_nil in Hp|].
    assert (HxP : x ∈ P0 ++ [x]) by (apply elem_of_app; right; by apply elem_of_list_singleton).
    assert (HxS : x ∈ St) by (by apply (i_P _ _ _ H)).
    eapply rtc_r; [apply (i_down _ _ _ H p x Hp HxS)|].
    - by eapply top_max.
    - exists (nxt a x). assert (x < n) by (by eapply S_lt). split; [done|].
      pose proof (i_nxt _ _ _ H x). split; [lia|done]. }
  split.
  - intros x k. rewrite Enum, Epre. case_decide as Hd.
    + intros [= <-]. subst. lia.
    + intros E. apply (i_num_lt _ _ _ H) in E. lia.
  - intros x y k. rewrite !Enum. repeat case_decide; subst; try done.
    + intros [= <-] E. apply (i_num_lt _ _ _ H) in E. lia.
    + intros E [= <-]. apply (i_num_lt _ _ _ H) in E. lia.
    + by apply (i_num_inj _ _ _ H).
  - intros x. rewrite Hsn, Hvis, Edon, (i_S _ _ _ H). naive_solver.
  - apply incr_app. split; [|split].
    + eapply incr_ext; [|by eapply i_Sinc]. intros y Hy. symmetry. by apply NS.
    + cbn. split; [|done]. intros v Hv. by apply elem_of_nil in Hv.
    + intros u v Hu ->%elem_of_list_singleton. rewrite Nw. by apply Hlt.
  - intros x. rewrite Edon, Hvis. intros Hx. left. by apply (i_done _ _ _ H).
  - intros x. rewrite !Hsn. intros [Hx| ->]; [left|by right]. by apply (i_P _ _ _ H).
  - apply incr_app. split; [|split].
    + eapply incr_ext; [|by eapply i_Pinc]. intros y Hy. symmetry. apply NS. by apply (i_P _ _ _ H).
    + cbn. split; [|done]. intros v Hv. by apply elem_of_nil in Hv.
    + intros u v Hu ->%elem_of_list_singleton. rewrite Nw. apply Hlt. by apply (i_P _ _ _ H).
  - intros i u v Hu Hv. rewrite Enxt.
    destruct (decide (S i < length P)) as [Hi|Hi].
    + rewrite lookup_app_l in Hu, Hv by lia. by apply (i_chain _ _ _ H i).
    + assert (S i < length (P ++ [w])) by (by eapply lookup_lt_Some).
      rewrite app_length in *. cbn [length] in *.
      rewrite lookup_app_l in Hu by lia. rewrite lookup_app_r in Hv by lia.
      replace (S i - length P) with 0 in Hv by lia. injection Hv as <-.
      destruct HP as [->|(P0 & x & -> & Hx & Ew)]; [done|].
      rewrite app_length in *. cbn [length] in *.
      rewrite lookup_app_r in Hu by lia. replace (i - length P0) with 0 in Hu by lia.
      by injection Hu as <-.
  - intros x Hx. rewrite Enxt. by apply (i_nxt _ _ _ H).
  - intros x e Hx. rewrite Enxt, Hvis. intros He. left. by apply (i_scanned _ _ _ H x).
  - intros x. rewrite Hvis, Enxt, Hsn. intros [Hv| ->] Hn; [|tauto].
    apply (i_fin _ _ _ H); tauto.
  - intros x. rewrite Hsn. intros [Hx| ->].
    + rewrite LS, NS by done. destruct (i_low _ _ _ H x Hx) as (H1 & z & Hz & Ez & Hr).
      split; [done|]. exists z. rewrite Hsn, NS by done. auto.
    + rewrite Lw, Nw. split; [done|]. exists w. rewrite Hsn. split; [by right|]. split; [done|]. constructor.
  - intros x. rewrite !Hsn. intros [Hx| ->] Hn; [|tauto]. rewrite LS, NS by done.
    apply (i_lowfin _ _ _ H); tauto.
  - intros v. rewrite Hsn. intros [Hv| ->].
    + destruct (i_up _ _ _ H v Hv) as (p & Hp & Hle & Hr). exists p. rewrite Hsn.
      rewrite !NS by (try done; by apply (i_P _ _ _ H)). auto.
    + exists w. rewrite Hsn. split; [by right|]. split; [done|]. constructor.
  - intros p v. rewrite !Hsn. intros [Hp| ->] [Hv| ->] Hle.
    + rewrite !NS in Hle by (try done; by apply (i_P _ _ _ H)). by apply (i_down _ _ _ H).
    + by apply Hpw.
    + rewrite Nw in Hle. apply Hlt in Hv. lia.
    + constructor.
  - intros p v e. rewrite !Hsn, Enxt. intros Hp Hv Hle He Hh.
    assert (Hhn : hd e <> w \/ True) by tauto.
    destruct Hv as [Hv| ->]; [|lia].
    destruct Hp as [Hp| ->].
    2:{ rewrite Nw in Hle. apply Hlt in Hv. lia. }
    pose proof (i_P _ _ _ H p Hp) as HpS.
    destruct Hh as [Hh|Ehw].
    2:{ left. rewrite Ehw, Nw. specialize (Hlt p HpS). lia. }
    rewrite !NS in Hle by done.
    destruct (i_low_all _ _ _ H p v e Hp Hv Hle He Hh) as [Hl|(p' & Hp' & Hpp & Hl)].
    + left. by rewrite !NS by done.
    + right. pose proof (i_P _ _ _ H p' Hp') as Hp'S. exists p'. rewrite Hsn.
      split; [by left|]. rewrite !NS by done. split; [done|].
      destruct Hl as [Hl|(Hl1 & Hl2 & Hl3)].
      * left. by rewrite LS.
      * right. rewrite Enxt. rewrite Hsn. split; [done|]. split; [by left|]. by rewrite LS.
  - intros x y. rewrite !Edon. apply (i_closed _ _ _ H).
  - intros x. rewrite Edon, Ecmp, Ecnt. apply (i_cmp_lt _ _ _ H).
  - intros x y. rewrite !Edon, !Ecmp. apply (i_cmp _ _ _ H).
  - intros x y. rewrite Edon, !Ecmp. apply (i_topo _ _ _ H).
  - intros c. rewrite Ecnt. intros Hc. destruct (i_all _ _ _ H c Hc) as (x & Hx & Ex).
    exists x. by rewrite Edon, Ecmp.
Qed.

(** Scanning an arc to a visited node: lines 46-48. *)
Lemma inv_scan a a' P0 x St :
  inv a (P0 ++ [x]) St -> nxt a x < lst x -> vis a (hd (nxt a x)) ->
  (forall y, num a' y = num a y) ->
  (forall y, low a' y = if decide (y = x) then
      (if decide (hd (nxt a x) ∈ St) then Nat.min (low a x) (low a (hd (nxt a x))) else low a x)
      else low a y) ->
  (forall y, nxt a' y = if decide (y = x) then S (nxt a x) else nxt a y) ->
  (forall y, don a' y = don a y) -> (forall y, cmp a' y = cmp a y) ->
  pre a' = pre a -> cnt a' = cnt a ->
  inv a' (P0 ++ [x]) St.
Proof.
  intros H Hlt Hv Enum Elow Enxt Edon Ecmp Epre Ecnt.
  set (h := hd (nxt a x)) in *.
  assert (HxP : x ∈ P0 ++ [x]) by (apply elem_of_app; right; by apply elem_of_list_singleton).
  assert (HxS : x ∈ St) by (by apply (i_P _ _ _ H)).
  assert (Hxn : x < n) by (by eapply S_lt).
  assert (Nu : forall y, nu a' y = nu a y) by (intros y; unfold nu; by rewrite Enum).
  assert (Vis : forall y, vis a' y <-> vis a y) by (intros y; unfold vis; by rewrite Enum).
  assert (Hnx : forall y, nxt a y <= nxt a' y).
  { intros y. rewrite Enxt. destruct (decide (y = x)); subst; lia. }
  assert (Lle : forall y, low a' y <= low a y).
  { intros y. rewrite Elow. destruct (decide (y = x)); [subst; destruct (decide (h ∈ St)); lia|lia]. }
  assert (Hfx : fst x <= nxt a x) by (apply (i_nxt _ _ _ H x Hxn)).
  assert (Hedge : aedge x h) by (exists (nxt a x); split; [done|]; split; [lia|done]).
  assert (Hlowx : h ∈ St -> low a' x <= low a h).
  { intros Hh. rewrite Elow, decide_True by done. rewrite decide_True by done. lia. }
  assert (Eel : forall p k, p ∈ P0 ++ [x] -> elow_le a St p k -> elow_le a' St p k).
  { intros p k Hp [Hl|(H1 & H2 & H3)].
    - left. specialize (Lle p). lia.
    - destruct (decide (p = x)) as [->|Hpx].
      + left. specialize (Hlowx H2). unfold h in Hlowx. lia.
      + right. rewrite Enxt, decide_False by done. split; [done|]. split; [done|].
        specialize (Lle (hd (nxt a p))). lia. }
  split.
  - intros y k. rewrite Enum, Epre. apply (i_num_lt _ _ _ H).
  - intros y z k. rewrite !Enum. apply (i_num_inj _ _ _ H).
  - intros y. rewrite Vis, Edon. apply (i_S _ _ _ H).
  - eapply incr_ext; [|by eapply i_Sinc]. done.
  - intros y. rewrite Edon, Vis. apply (i_done _ _ _ H).
  - apply (i_P _ _ _ H).
  - eapply incr_ext; [|by eapply i_Pinc]. done.
  - intros i u v Hu Hv'. rewrite Enxt, decide_False; [by apply (i_chain _ _ _ H i)|].
    intros ->. pose proof (incr_NoDup _ _ (i_Pinc _ _ _ H)) as Hnd.
    assert (Hl : (P0 ++ [x]) !! length P0 = Some x).
    { rewrite lookup_app_r by lia. by rewrite Nat.sub_diag. }
    pose proof (NoDup_lookup _ _ _ _ Hnd Hu Hl) as ->.
    apply lookup_lt_Some in Hv'. rewrite app_length in Hv'. cbn in Hv'. lia.
  - intros y Hy. pose proof (i_nxt _ _ _ H y Hy). rewrite Enxt. destruct (decide (y = x)); subst; lia.
  - intros y e Hy He. rewrite Vis. rewrite Enxt in He. destruct (decide (y = x)) as [Hd|Hd].
    + subst. destruct (decide (e = nxt a x)) as [->|]; [done|].
      apply (i_scanned _ _ _ H x); [done|lia].
    + by apply (i_scanned _ _ _ H y).
  - intros y. rewrite Vis. intros Hy Hn. rewrite Enxt, decide_False; [by apply (i_fin _ _ _ H)|].
    by intros ->.
  - intros y Hy. rewrite Nu. destruct (i_low _ _ _ H y Hy) as (H1 & z & Hz & Ez & Hr).
    split; [specialize (Lle y); lia|].
    rewrite Elow. destruct (decide (y = x)) as [Hd|Hd]; [subst y|exists z; rewrite Nu; done].
    destruct (decide (h ∈ St)) as [Hh|Hh]; [|exists z; rewrite Nu; done].
    destruct (decide (low a x <= low a h)).
    + exists z. rewrite Nu. split; [done|]. split; [lia|done].
    + destruct (i_low _ _ _ H h Hh) as (_ & z' & Hz' & Ez' & Hr').
      exists z'. rewrite Nu. split; [done|]. split; [lia|].
      by eapply rtc_l.
  - intros y Hy Hn. rewrite Nu. pose proof (i_lowfin _ _ _ H y Hy Hn). specialize (Lle y). lia.
  - intros v Hv'. destruct (i_up _ _ _ H v Hv') as (p & ? & ? & ?). exists p. by rewrite !Nu.
  - intros p v Hp Hv'. rewrite !Nu. by apply (i_down _ _ _ H).
  - intros p v e Hp Hv' Hle He Hh. rewrite !Nu in *.
    destruct (decide (e < nxt a v)) as [He'|He'].
    + destruct (i_low_all _ _ _ H p v e Hp Hv' Hle ltac:(lia) Hh) as [Hl|(p' & Hp' & Hpp & Hl)].
      * by left.
      * right. exists p'. rewrite !Nu. split; [done|]. split; [done|]. by apply Eel.
    + assert (v = x) as ->.
      { rewrite Enxt in He. destruct (decide (v = x)); [done|lia]. }
      assert (e = nxt a x) as ->.
      { rewrite Enxt, decide_True in He by done. lia. }
      right. exists x. rewrite Nu. split; [done|]. split; [lia|]. left.
      fold h in Hh |- *. destruct (i_low _ _ _ H h Hh) as (Hl & _). specialize (Hlowx Hh).
      lia.
  - intros y z. rewrite !Edon. apply (i_closed _ _ _ H).
  - intros y. rewrite Edon, Ecmp, Ecnt. apply (i_cmp_lt _ _ _ H).
  - intros y z. rewrite !Edon, !Ecmp. apply (i_cmp _ _ _ H).
  - intros y z. rewrite Edon, !Ecmp. apply (i_topo _ _ _ H).
  - intros c. rewrite Ecnt. intros Hc. destruct (i_all _ _ _ H c Hc) as (y & Hy & Ey).
    exists y. by rewrite Edon, Ecmp.
Qed.

(** Leaving a node that is not the root of a component. *)
Lemma inv_leave a P0 x St :
  inv a (P0 ++ [x]) St -> nxt a x = lst x -> low a x <> nu a x -> inv a P0 St.
Proof.
  intros H Hnx Hlow.
  assert (HxP : x ∈ P0 ++ [x]) by (apply elem_of_app; right; by apply elem_of_list_singleton).
  assert (HxS : x ∈ St) by (by apply (i_P _ _ _ H)).
  assert (Hx0 : x ∉ P0) by (by eapply top_notin).
  assert (Hsub : forall y, y ∈ P0 -> y ∈ P0 ++ [x]) by (intros y Hy; apply elem_of_app; by left).
  assert (Hsn : forall y, y ∈ P0 ++ [x] <-> y ∈ P0 \/ y = x).
  { intros y. by rewrite elem_of_app, elem_of_list_singleton. }
  destruct (i_low _ _ _ H x HxS) as (Hle & z & Hz & Ez & Hrz).
  assert (Hup : forall v, v ∈ St -> exists p, p ∈ P0 /\ nu a p <= nu a v /\ areach v p).
  { intros v Hv. destruct (i_up _ _ _ H v Hv) as (p & Hp & Hpv & Hr).
    apply Hsn in Hp as [Hp| ->]; [by exists p|].
    destruct (i_up _ _ _ H z Hz) as (p & Hp & Hpz & Hr').
    apply Hsn in Hp as [Hp| ->]; [|lia].
    exists p. split; [done|]. split; [lia|]. etrans; [exact Hr|]. etrans; [exact Hrz|done]. }
  assert (Hpar : P0 <> []).
  { intros ->. destruct (Hup x HxS) as (p & Hp & _). by apply elem_of_nil in Hp. }
  destruct (exists_last Hpar) as (P1 & u & ->).
  assert (Hux : nxt a u < lst u /\ hd (nxt a u) = x).
  { apply (i_chain _ _ _ H (length P1)).
    - rewrite <- app_assoc, lookup_app_r by lia. by rewrite Nat.sub_diag.
    - rewrite lookup_app_r; rewrite app_length; cbn [length]; [|lia].
      by replace (S (length P1) - (length P1 + 1)) with 0 by lia. }
  set (P0 := P1 ++ [u]) in *.
  assert (HuP : u ∈ P0) by (apply elem_of_app; right; by apply elem_of_list_singleton).
  split; try apply H.
  - intros y Hy. by apply (i_P _ _ _ H), Hsub.
  - pose proof (i_Pinc _ _ _ H) as Hi. by apply incr_app in Hi as (Hi & _).
  - intros i v w Hv Hw. apply (i_chain _ _ _ H i); by apply lookup_app_l_Some.
  - intros y Hy Hn. destruct (decide (y = x)) as [->|]; [done|].
    apply (i_fin _ _ _ H); [done|]. rewrite Hsn. tauto.
  - intros y Hy Hn. destruct (decide (y = x)) as [->|]; [lia|].
    apply (i_lowfin _ _ _ H); [done|]. rewrite Hsn. tauto.
  - exact Hup.
  - intros p v Hp. apply (i_down _ _ _ H). by apply Hsub.
  - intros p v e Hp Hv Hpv He Hh.
    destruct (i_low_all _ _ _ H p v e (Hsub p Hp) Hv Hpv He Hh) as [Hl|(p' & Hp' & Hpp & Hl)];
      [by left|]. right.
    apply Hsn in Hp' as [Hp'| ->]; [by exists p'|].
    exists u. split; [done|]. split.
    + apply (incr_top _ P1 u); [|done].
      pose proof (i_Pinc _ _ _ H) as Hi. by apply incr_app in Hi as (Hi & _).
    + right. destruct Hux as [Hu1 ->]. split; [done|]. split; [done|].
      destruct Hl as [Hl|(Hl & _)]; [done|lia].
Qed.

(** Popping a component: lines 52-59. *)
Lemma inv_pop a a' P0 x S1 S2 :
  inv a (P0 ++ [x]) (S1 ++ x :: S2) -> nxt a x = lst x -> low a x = nu a x ->
  (forall y, num a' y = num a y) -> (forall y, low a' y = low a y) ->
  (forall y, nxt a' y = nxt a y) ->
  (forall y, don a' y = if decide (y ∈ x :: S2) then true else don a y) ->
  (forall y, cmp a' y = if decide (y ∈ x :: S2) then cnt a else cmp a y) ->
  pre a' = pre a -> cnt a' = S (cnt a) ->
  inv a' P0 S1.
Proof.
  intros H Hnx Hlow Enum Elow Enxt Edon Ecmp Epre Ecnt.
  assert (HxP : x ∈ P0 ++ [x]) by (apply elem_of_app; right; by apply elem_of_list_singleton).
  assert (Hx0 : x ∉ P0) by (by eapply top_notin).
  assert (Hsub : forall y, y ∈ P0 -> y ∈ P0 ++ [x]) by (intros y Hy; apply elem_of_app; by left).
  assert (Hsn : forall y, y ∈ P0 ++ [x] <-> y ∈ P0 \/ y = x).
  { intros y. by rewrite elem_of_app, elem_of_list_singleton. }
  assert (Nu : forall y, nu a' y = nu a y) by (intros y; unfold nu; by rewrite Enum).
  assert (Vis : forall y, vis a' y <-> vis a y) by (intros y; unfold vis; by rewrite Enum).
  pose proof (i_Sinc _ _ _ H) as Hi. apply incr_app in Hi as (Hi1 & Hi2 & Hi3).
  assert (HS : forall y, y ∈ S1 ++ x :: S2 <-> y ∈ S1 \/ y ∈ x :: S2) by (intros y; apply elem_of_app).
  assert (HxS : x ∈ S1 ++ x :: S2) by (apply HS; right; left).
  assert (HS1 : forall y, y ∈ S1 -> nu a y < nu a x) by (intros y Hy; apply Hi3; [done|left]).
  assert (HC : forall y, y ∈ x :: S2 -> nu a x <= nu a y).
  { intros y Hy. apply elem_of_cons in Hy as [->|Hy]; [done|]. cbn in Hi2.
    apply Nat.lt_le_incl. by apply Hi2. }
  assert (HlowS : forall y, y ∈ S1 ++ x :: S2 -> nu a y < nu a x -> y ∈ S1).
  { intros y Hy Hlt. apply HS in Hy as [Hy|Hy]; [done|]. apply HC in Hy. lia. }
  assert (HP0 : forall p, p ∈ P0 -> p ∈ S1).
  { intros p Hp. apply HlowS; [by apply (i_P _ _ _ H), Hsub|].
    pose proof (i_Pinc _ _ _ H) as Hpi. apply incr_app in Hpi as (_ & _ & Hpi).
    apply Hpi; [done|]. by apply elem_of_list_singleton. }
  assert (HCd : forall y, y ∈ x :: S2 -> don a y = false).
  { intros y Hy. apply (i_S _ _ _ H). apply HS. by right. }
  assert (HS1d : forall y, y ∈ S1 -> don a y = false).
  { intros y Hy. apply (i_S _ _ _ H). apply HS. by left. }
  assert (Hdisj : forall y, y ∈ S1 -> y ∉ x :: S2).
  { intros y H1 H2. apply HS1 in H1. apply HC in H2. lia. }
  (* the popped nodes are mutually reachable *)
  assert (Hfrom : forall y, y ∈ x :: S2 -> areach x y).
  { intros y Hy. apply (i_down _ _ _ H); [done|apply HS; by right|by apply HC]. }
  assert (Hto : forall y, y ∈ x :: S2 -> areach y x).
  { intros y Hy. destruct (i_up _ _ _ H y) as (p & Hp & Hpy & Hr); [apply HS; by right|].
    etrans; [exact Hr|]. apply (i_down _ _ _ H); [done|done|]. by eapply top_max. }
  (* their arcs lead to popped or completed nodes *)
  assert (Hout : forall y z, y ∈ x :: S2 -> aedge y z -> z ∈ x :: S2 \/ don a z = true).
  { intros y z Hy (e & Hyn & He & <-).
    assert (HyS : y ∈ S1 ++ x :: S2) by (apply HS; by right).
    assert (Hfin : nxt a y = lst y).
    { destruct (decide (y = x)) as [->|Hyx]; [done|]. apply (i_fin _ _ _ H).
      - by apply (i_S _ _ _ H).
      - rewrite Hsn. intros [Hp|?]; [|done]. apply HP0 in Hp. by eapply Hdisj. }
    assert (Hv : vis a (hd e)) by (apply (i_scanned _ _ _ H y e); [done|lia]).
    destruct (don a (hd e)) eqn:Ed; [by right|]. left.
    assert (Hh : hd e ∈ S1 ++ x :: S2) by (by apply (i_S _ _ _ H)).
    assert (Hge : nu a x <= nu a (hd e)).
    { destruct (i_low_all _ _ _ H x y e HxP HyS (HC y Hy) ltac:(lia) Hh)
        as [Hl|(p' & Hp' & Hpp & Hl)]; [done|].
      apply Hsn in Hp' as [Hp'| ->]; [apply HP0, HS1 in Hp'; lia|].
      destruct Hl as [Hl|(Hl & _)]; lia. }
    apply HS in Hh as [Hh|Hh]; [|done]. apply HS1 in Hh. lia. }
  assert (Hnr : forall y z, don a y = true -> z ∈ x :: S2 -> ~ areach y z).
  { intros y z Hy Hz Hr. pose proof (don_reach a _ _ y z H Hy Hr) as Hd.
    rewrite HCd in Hd by done. done. }
  assert (Hdon : forall y, don a' y = true <-> y ∈ x :: S2 \/ don a y = true).
  { intros y. rewrite Edon. case_decide; naive_solver. }
  assert (Cc : forall y, y ∈ x :: S2 -> cmp a' y = cnt a).
  { intros y Hy. by rewrite Ecmp, decide_True. }
  assert (Cd : forall y, don a y = true -> cmp a' y = cmp a y).
  { intros y Hy. rewrite Ecmp, decide_False; [done|]. intros Hc. apply HCd in Hc. congruence. }
  split.
  - intros y k. rewrite Enum, Epre. apply (i_num_lt _ _ _ H).
  - intros y z k. rewrite !Enum. apply (i_num_inj _ _ _ H).
  - intros y. rewrite Vis, Edon. split.
    + intros Hy. rewrite decide_False by (by apply Hdisj). apply (i_S _ _ _ H), HS. by left.
    + intros [Hv Hd]. case_decide as Hc; [done|].
      assert (Hy : y ∈ S1 ++ x :: S2) by (by apply (i_S _ _ _ H)). by apply HS in Hy as [Hy|Hy].
  - eapply incr_ext; [|exact Hi1]. done.
  - intros y. rewrite Hdon, Vis. intros [Hy|Hy]; [|by apply (i_done _ _ _ H)].
    apply (i_S _ _ _ H), HS. by right.
  - exact HP0.
  - pose proof (i_Pinc _ _ _ H) as Hpi. apply incr_app in Hpi as (Hpi & _).
    eapply incr_ext; [|exact Hpi]. done.
  - intros i u v Hu Hv. rewrite Enxt. apply (i_chain _ _ _ H i); by apply lookup_app_l_Some.
  - intros y. rewrite Enxt. apply (i_nxt _ _ _ H).
  - intros y e. rewrite Enxt, Vis. apply (i_scanned _ _ _ H).
  - intros y. rewrite Enxt, Vis. intros Hy Hn. destruct (decide (y = x)) as [->|]; [done|].
    apply (i_fin _ _ _ H); [done|]. rewrite Hsn. tauto.
  - intros y Hy. rewrite Elow, Nu.
    destruct (i_low _ _ _ H y) as (Hl & z & Hz & Ez & Hr); [apply HS; by left|].
    split; [done|]. exists z. rewrite Nu. split; [|done]. apply HlowS; [done|].
    apply HS1 in Hy. lia.
  - intros y Hy Hn. rewrite Elow, Nu. apply (i_lowfin _ _ _ H); [apply HS; by left|].
    rewrite Hsn. intros [?| ->]; [done|]. apply HS1 in Hy. lia.
  - intros v Hv. destruct (i_up _ _ _ H v) as (p & Hp & Hpv & Hr); [apply HS; by left|].
    exists p. rewrite !Nu. split; [|done]. apply Hsn in Hp as [Hp| ->]; [done|].
    apply HS1 in Hv. lia.
  - intros p v Hp Hv. rewrite !Nu. apply (i_down _ _ _ H); [by apply Hsub|apply HS; by left].
  - intros p v e Hp Hv. rewrite !Nu, Enxt. intros Hpv He Hh.
    destruct (i_low_all _ _ _ H p v e (Hsub p Hp)) as [Hl|(p' & Hp' & Hpp & Hl)];
      [apply HS; by left|done|done|apply HS; by left|by left|]. right.
    pose proof (HS1 _ Hh) as Hhx.
    apply Hsn in Hp' as [Hp'| ->].
    + exists p'. rewrite !Nu. split; [done|]. split; [done|].
      destruct Hl as [Hl|(Hl1 & Hl2 & Hl3)]; [left; by rewrite Elow|].
      right. rewrite Enxt, Elow. split; [done|]. split; [|done].
      apply HS in Hl2 as [Hl2|Hl2]; [done|]. exfalso.
      (* the arc under the cursor leads to the next node of the path *)
      apply elem_of_list_lookup in Hp' as [i Hi'].
      assert (Hil : i < length P0) by (by eapply lookup_lt_Some).
      destruct (lookup_lt_is_Some_2 (P0 ++ [x]) (S i)) as [v' Hv']; [rewrite app_length; cbn; lia|].
      destruct (i_chain _ _ _ H i p' v') as [_ Ev]; [by apply lookup_app_l_Some|done|].
      rewrite Ev in Hl2, Hl3. apply elem_of_list_lookup_2 in Hv'.
      apply Hsn in Hv' as [Hv'| ->]; [|lia]. apply HP0 in Hv'. by eapply Hdisj.
    + destruct Hl as [Hl|(Hl & _)]; lia.
  - intros y z Hy He. apply Hdon. apply Hdon in Hy as [Hy|Hy].
    + by eapply Hout.
    + right. by eapply i_closed.
  - intros y. rewrite Hdon, Ecnt. intros [Hy|Hy].
    + rewrite Cc by done. lia.
    + rewrite Cd by done. pose proof (i_cmp_lt _ _ _ H y Hy). lia.
  - intros y z. rewrite !Hdon. intros [Hy|Hy] [Hz|Hz].
    + rewrite !Cc by done. split; [|done]. intros _. split.
      * etrans; [by apply Hto|by apply Hfrom].
      * etrans; [by apply Hto|by apply Hfrom].
    + rewrite (Cc y Hy), (Cd z Hz). pose proof (i_cmp_lt _ _ _ H z Hz). split; [lia|].
      intros [_ Hr]. exfalso. by eapply Hnr.
    + rewrite (Cd y Hy), (Cc z Hz). pose proof (i_cmp_lt _ _ _ H y Hy). split; [lia|].
      intros [Hr _]. exfalso. by eapply Hnr.
    + rewrite !Cd by done. by apply (i_cmp _ _ _ H).
  - intros y z. rewrite Hdon. intros [Hy|Hy] He.
    + rewrite (Cc y Hy). destruct (Hout y z Hy He) as [Hz|Hz].
      * by rewrite Cc.
      * rewrite Cd by done. apply Nat.lt_le_incl. by apply (i_cmp_lt _ _ _ H).
    + assert (Hz : don a z = true) by (by eapply i_closed). rewrite !Cd by done.
      by apply (i_topo _ _ _ H).
  - intros c. rewrite Ecnt. intros Hc. destruct (decide (c = cnt a)) as [->|Hne].
    + exists x. split; [apply Hdon; left; left|]. apply Cc. left.
    + destruct (i_all _ _ _ H c ltac:(lia)) as (y & Hy & Ey). exists y.
      split; [apply Hdon; by right|]. by rewrite Cd.
Qed.

End inv.
