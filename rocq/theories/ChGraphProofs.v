(** The adjacency lists of the graph being contracted as finite functions. *)
From Verif Require Import Base ChGraphModel.
Ltac Zify.zify_post_hook ::= idtac.

Definition val (a : garc) : N * N * option nat := (ga_weight a, ga_hop a, ga_mid a).
(** The arc to [y] in an adjacency list. *)
Definition lkup (l : list garc) (y : nat) : option (N * N * option nat) :=
  match find_node l y with Some i => val <$> l !! i | None => None end.
(** The arc from [x] to [y]. *)
Definition fo (l : list (list garc)) (x y : nat) : option (N * N * option nat) :=
  match l !! x with Some v => lkup v y | None => None end.

Lemma find_node_Some l y i : find_node l y = Some i -> exists a, l !! i = Some a /\ ga_node a = y.
Proof.
  revert i. induction l as [|a l IH]; intros i; cbn [find_node]; [done|].
  destruct (decide (ga_node a = y)) as [<-|].
  - intros [= <-]. by exists a.
  - destruct (find_node l y) as [j|]; [|done]. cbn. intros [= <-]. by apply IH.
Qed.
Lemma find_node_None l y : find_node l y = None <-> y ∉ (ga_node <$> l).
Proof.
  induction l as [|a l IH]; cbn [find_node]; [by rewrite elem_of_nil; naive_solver|].
  rewrite fmap_cons, elem_of_cons. destruct (decide (ga_node a = y)) as [<-|Hne].
  - naive_solver.
  - destruct (find_node l y); cbn; naive_solver.
Qed.
Lemma find_node_at l i a : NoDup (ga_node <$> l) -> l !! i = Some a -> find_node l (ga_node a) = Some i.
Proof.
  revert i. induction l as [|b l IH]; intros i Hnd Hi; [done|]. cbn [find_node]. rewrite fmap_cons, NoDup_cons in Hnd. destruct Hnd as [Hb Hnd].
  destruct i as [|i]; cbn in Hi.
  - simplify_eq. by rewrite decide_True.
  - rewrite decide_False.
    + by rewrite (IH i).
    + intros E. apply Hb. rewrite E. apply elem_of_list_fmap_1. by eapply elem_of_list_lookup_2.
Qed.

Lemma lkup_None l y : lkup l y = None <-> y ∉ (ga_node <$> l).
Proof.
  rewrite <- find_node_None. unfold lkup. destruct (find_node l y) as [i|] eqn:E; [|done].
  destruct (find_node_Some _ _ _ E) as (a & -> & _). done.
Qed.
Lemma lkup_elem l a : NoDup (ga_node <$> l) -> a ∈ l -> lkup l (ga_node a) = Some (val a).
Proof.
  intros Hnd [i Hi]%elem_of_list_lookup. unfold lkup. by rewrite (find_node_at l i a), Hi.
Qed.
Lemma lkup_Some l y w h m : lkup l y = Some (w, h, m) -> mkGarc y w h m ∈ l.
Proof.
  unfold lkup. destruct (find_node l y) as [i|] eqn:E; [|done].
  destruct (find_node_Some _ _ _ E) as (a & Ha & Hy). rewrite Ha. destruct a; cbn in *. intros [= <- <- <-]. subst.
  by eapply elem_of_list_lookup_2.
Qed.
(** a list with distinct nodes is determined by its lookups *)
Lemma lkup_iff l y w h m : NoDup (ga_node <$> l) -> lkup l y = Some (w, h, m) <-> mkGarc y w h m ∈ l.
Proof. intros Hnd. split; [apply lkup_Some|]. intros H. by apply (lkup_elem _ (mkGarc y w h m)). Qed.

Lemma option_ext {A} (a b : option A) : (forall x, a = Some x <-> b = Some x) -> a = b.
Proof.
  destruct a as [x|], b as [y|]; intros H; [|by destruct (H x) as [H1 _]; specialize (H1 eq_refl)|by destruct (H y) as [_ H1]; specialize (H1 eq_refl)|done].
  destruct (H x) as [H1 _]. by rewrite H1.
Qed.

Lemma lkup_snoc l a y : NoDup (ga_node <$> l) -> lkup l (ga_node a) = None ->
  NoDup (ga_node <$> l ++ [a]) /\ lkup (l ++ [a]) y = (if decide (y = ga_node a) then Some (val a) else lkup l y).
Proof.
  intros Hnd Hn%lkup_None.
  assert (NoDup (ga_node <$> l ++ [a])) as Hnd2.
  { rewrite fmap_app, fmap_cons, fmap_nil. apply NoDup_app. split; [done|]. split; [|by apply NoDup_singleton].
    intros x Hx ->%elem_of_list_singleton. done. }
  split; [done|]. destruct (decide (y = ga_node a)) as [->|Hne].
  - apply lkup_elem; [done|]. apply elem_of_app. right. by apply elem_of_list_singleton.
  - apply option_ext. intros [[w h] m]. rewrite !lkup_iff, elem_of_app, elem_of_list_singleton by done. split; [|naive_solver].
    intros [?|E]; [done|]. by subst a.
Qed.
Lemma set_arc_spec l y i w h m :
  NoDup (ga_node <$> l) -> find_node l y = Some i ->
  exists l', set_arc l i w h m = Some l' /\ NoDup (ga_node <$> l') /\
    forall z, lkup l' z = (if decide (z = y) then Some (w, h, m) else lkup l z).
Proof.
  intros Hnd Hf. destruct (find_node_Some _ _ _ Hf) as (a & Ha & Hy). unfold set_arc. rewrite Ha, bind_S.
  pose proof (lookup_lt_Some _ _ _ Ha) as Hlt. rewrite (wr_Some l) by done. rewrite Hy.
  assert (ga_node <$> <[i:=mkGarc y w h m]> l = ga_node <$> l) as Hn.
  { rewrite list_fmap_insert. apply list_insert_id. by rewrite list_lookup_fmap, Ha, <- Hy. }
  eexists. split; [done|]. rewrite Hn. split; [done|]. intros z. destruct (decide (z = y)) as [->|Hne].
  - apply lkup_iff; [by rewrite Hn|]. apply elem_of_list_lookup. exists i. by rewrite list_lookup_insert.
  - apply option_ext. intros [[w' h'] m']. rewrite !lkup_iff by (rewrite ?Hn; done). rewrite !elem_of_list_lookup.
    split; intros [j Hj]; exists j; (destruct (decide (i = j)) as [->|]; [|by rewrite list_lookup_insert_ne in * by done]).
    + rewrite list_lookup_insert in Hj by done. by simplify_eq.
    + rewrite Ha in Hj. simplify_eq.
Qed.
Lemma delete_arc_spec l y i :
  NoDup (ga_node <$> l) -> find_node l y = Some i ->
  NoDup (ga_node <$> delete i l) /\ forall z, lkup (delete i l) z = (if decide (z = y) then None else lkup l z).
Proof.
  intros Hnd Hf. destruct (find_node_Some _ _ _ Hf) as (a & Ha & Hy).
  rewrite <- (take_drop_middle l i a Ha) in Hnd. rewrite fmap_app, fmap_cons in Hnd.
  apply NoDup_app in Hnd as (Hnd1 & Hnd12 & Hnd2). apply NoDup_cons in Hnd2 as [Ha2 Hnd2].
  rewrite delete_take_drop.
  assert (NoDup (ga_node <$> take i l ++ drop (S i) l)) as Hnd'.
  { rewrite fmap_app. apply NoDup_app. split; [done|]. split; [|done]. intros x Hx Hx2. apply (Hnd12 x Hx). by right. }
  split; [done|]. intros z. destruct (decide (z = y)) as [->|Hne].
  - apply lkup_None. rewrite fmap_app, elem_of_app, <- Hy. intros [?|?]; [|done].
    by eapply Hnd12; [done|left].
  - apply option_ext. intros [[w h] m]. rewrite lkup_iff by done.
    assert (NoDup (ga_node <$> l)) as Hnd0.
    { rewrite <- (take_drop_middle l i a Ha), fmap_app, fmap_cons. apply NoDup_app. split; [done|]. split; [done|]. by apply NoDup_cons. }
    rewrite lkup_iff by done. rewrite <- (take_drop_middle l i a Ha) at 3. rewrite !elem_of_app, elem_of_cons.
    split; [naive_solver|]. intros [?|[<-|?]]; [by left| |by right]. done.
Qed.

(** ** Graphs *)
Record gok (n : nat) (g : chgraph) : Prop := {
  gk_out : length (g_out g) = n;
  gk_in : length (g_in g) = n;
  gk_level : length (g_level g) = n;
  gk_nd_out : forall x l, g_out g !! x = Some l -> NoDup (ga_node <$> l);
  gk_nd_in : forall x l, g_in g !! x = Some l -> NoDup (ga_node <$> l);
  gk_mirror : forall x y, fo (g_out g) x y = fo (g_in g) y x;
  gk_noloop : forall x, fo (g_out g) x x = None }.

Lemma fo_lookup l x v y : l !! x = Some v -> fo l x y = lkup v y.
Proof. intros H. unfold fo. by rewrite H. Qed.
Lemma fo_insert l x v z y : x < length l -> fo (<[x:=v]> l) z y = (if decide (z = x) then lkup v y else fo l z y).
Proof.
  intros Hx. unfold fo. destruct (decide (z = x)) as [->|]; [by rewrite list_lookup_insert|by rewrite list_lookup_insert_ne].
Qed.
Lemma fo_lt l x y v : fo l x y = Some v -> x < length l.
Proof. unfold fo. destruct (l !! x) eqn:E; [|done]. intros _. by eapply lookup_lt_Some. Qed.
Lemma gok_lt n g x y v : gok n g -> fo (g_out g) x y = Some v -> x < n /\ y < n /\ x <> y.
Proof.
  intros Hg H. split; [rewrite <- (gk_out n g Hg); by eapply fo_lt|]. split.
  - rewrite (gk_mirror n g Hg) in H. rewrite <- (gk_in n g Hg). by eapply fo_lt.
  - intros ->. by rewrite (gk_noloop n g Hg) in H.
Qed.

Definition upd {V} (P : nat -> nat -> option V) (x y : nat) (v : option V) : nat -> nat -> option V :=
  fun u z => if decide (u = x /\ z = y) then v else P u z.

Lemma nd_insert (l : list (list garc)) x v :
  (forall x l', l !! x = Some l' -> NoDup (ga_node <$> l')) -> NoDup (ga_node <$> v) ->
  forall y l', <[x:=v]> l !! y = Some l' -> NoDup (ga_node <$> l').
Proof.
  intros H Hv y l' [(-> & <- & _)|[_ ?]]%list_lookup_insert_Some; [done|eauto].
Qed.

Lemma push_arc_spec l x a v :
  l !! x = Some v -> (forall x l', l !! x = Some l' -> NoDup (ga_node <$> l')) -> fo l x (ga_node a) = None ->
  exists l', push_arc l x a = Some l' /\ length l' = length l /\
    (forall x l0, l' !! x = Some l0 -> NoDup (ga_node <$> l0)) /\
    forall u z, fo l' u z = upd (fo l) x (ga_node a) (Some (val a)) u z.
Proof.
  intros Hv Hnd Hn. pose proof (lookup_lt_Some _ _ _ Hv) as Hlt. unfold push_arc. rewrite Hv, bind_S, (wr_Some l) by done.
  rewrite (fo_lookup _ _ _ _ Hv) in Hn. eexists. split; [done|]. rewrite insert_length. split; [done|]. split.
  - apply nd_insert; [done|]. apply (lkup_snoc v a 0); [eauto|done].
  - intros u z. rewrite fo_insert by done. destruct (lkup_snoc v a z) as [_ E]; [eauto|done|]. unfold upd.
    destruct (decide (u = x)) as [->|].
    + rewrite E, <- (fo_lookup _ _ _ _ Hv). destruct (decide (z = ga_node a)) as [->|]; [by rewrite decide_True|by rewrite decide_False by naive_solver].
    + by rewrite decide_False by naive_solver.
Qed.

(** The graph as a function from pairs of nodes to arcs. *)
Notation gf g := (fo (g_out g)).

Lemma new_graph_spec n tail head weight :
  length head = length tail -> length weight = length tail ->
  (forall a x, tail !! a = Some x -> x < n) -> (forall a x, head !! a = Some x -> x < n) ->
  (forall a b x y, tail !! a = Some x -> tail !! b = Some x -> head !! a = Some y -> head !! b = Some y -> a = b) ->
  (forall a x, tail !! a = Some x -> head !! a = Some x -> False) ->
  exists g, new_graph n tail head weight = Some g /\ gok n g /\ g_level g = replicate n 0%N /\
    forall x y w h m, gf g x y = Some (w, h, m) <-> h = 1%N /\ m = None /\ exists a, tail !! a = Some x /\ head !! a = Some y /\ weight !! a = Some w.
Proof.
  intros Hh Hw Ht Hhd Hsim Hloop. unfold new_graph.
  destruct (for_range_inv
    (fun i '(o, ii) => length o = n /\ length ii = n /\
       (forall x l, o !! x = Some l -> NoDup (ga_node <$> l)) /\ (forall x l, ii !! x = Some l -> NoDup (ga_node <$> l)) /\
       (forall x y, fo o x y = fo ii y x) /\
       forall x y w h m, fo o x y = Some (w, h, m) <-> h = 1%N /\ m = None /\ exists a, a < i /\ tail !! a = Some x /\ head !! a = Some y /\ weight !! a = Some w)
    (fun a '(o, i) =>
      x ← tail !! a; y ← head !! a; w ← weight !! a;
      if decide (x <> y) then
        o ← push_arc o x (mkGarc y w 1 None);
        i ← push_arc i y (mkGarc x w 1 None);
        Some (o, i)
      else Some (o, i)) 0 (length head) (replicate n [], replicate n [])) as ([o ii] & E & Ho & Hi & Hndo & Hndi & Hmir & Hiff).
  - lia.
  - rewrite !replicate_length. split; [done|]. split; [done|].
    assert (forall x (l : list garc), replicate n [] !! x = Some l -> NoDup (ga_node <$> l)) as Hr.
    { intros x l [-> _]%lookup_replicate. by apply NoDup_nil_2. }
    assert (forall x y, fo (replicate n []) x y = None) as Hf.
    { intros x y. unfold fo. destruct (replicate n [] !! x) eqn:E; [|done]. by apply lookup_replicate in E as [-> _]. }
    split; [done|]. split; [done|]. split; [intros; by rewrite !Hf|]. intros x y w h m. rewrite Hf. split; [done|]. intros (_ & _ & a & ? & _). lia.
  - intros i [o ii] Hi (Hlo & Hli & Hndo & Hndi & Hmir & Hiff).
    destruct (lookup_lt_is_Some_2 tail i) as [x Hx]; [lia|]. destruct (lookup_lt_is_Some_2 head i) as [y Hy]; [lia|].
    destruct (lookup_lt_is_Some_2 weight i) as [w Hwi]; [lia|].
    rewrite Hx, bind_S, Hy, bind_S, Hwi, bind_S. rewrite decide_True by (intros ->; by eapply Hloop).
    destruct (lookup_lt_is_Some_2 o x) as [vo Hvo]; [rewrite Hlo; eauto|].
    destruct (lookup_lt_is_Some_2 ii y) as [vi Hvi]; [rewrite Hli; eauto|].
    assert (fo o x y = None) as Hn.
    { destruct (fo o x y) as [[[w' h'] m']|] eqn:E; [|done]. apply Hiff in E as (_ & _ & a & Ha & Hta & Hha & _).
      assert (a = i) by (by eapply Hsim). lia. }
    destruct (push_arc_spec o x (mkGarc y w 1 None) vo) as (o' & -> & Hlo' & Hndo' & Ho'); [done|done|done|]. rewrite bind_S.
    destruct (push_arc_spec ii y (mkGarc x w 1 None) vi) as (ii' & -> & Hli' & Hndi' & Hi'); [done|done|cbn; by rewrite <- Hmir|]. rewrite bind_S.
    eexists. split; [done|]. cbv beta iota. split; [lia|]. split; [lia|]. split; [done|]. split; [done|]. cbn [ga_node val ga_weight ga_hop ga_mid] in *. split.
    + intros u z. rewrite Ho', Hi'. unfold upd. rewrite Hmir. by destruct (decide (u = x /\ z = y)), (decide (z = y /\ u = x)); try naive_solver.
    + intros u z w' h m. rewrite Ho'. unfold upd, val. cbn. destruct (decide (u = x /\ z = y)) as [[-> ->]|Hne].
      * split.
        -- intros [= <- <- <-]. split; [done|]. split; [done|]. exists i. split; [lia|done].
        -- intros (-> & -> & a & Ha & Hta & Hha & Hwa). assert (a = i) as -> by (by eapply Hsim). by simplify_eq.
      * rewrite Hiff. split; [intros (? & ? & a & ? & ?); split_and!; [done..|]; exists a; split; [lia|done]|].
        intros (? & ? & a & ? & Hta & Hha & Hwa). split_and!; [done..|]. exists a. split; [|done].
        destruct (decide (a = i)) as [->|]; [|lia]. exfalso. simplify_eq. naive_solver.
  - rewrite E, bind_S. eexists. split; [done|]. cbn. split; [|split; [done|]].
    + split; cbn; [done..|by rewrite replicate_length|done|done|done|].
      intros x. destruct (fo o x x) as [[[w h] m]|] eqn:Ex; [|done]. apply Hiff in Ex as (_ & _ & a & _ & ? & ? & _). exfalso. by eapply Hloop.
    + intros x y w h m. rewrite Hiff. split; [intros (? & ? & a & ? & ?)|intros (? & ? & a & Ha & ?)]; split_and!; [done..| |done|done|]; exists a; [done|].
      split; [|done]. apply lookup_lt_Some in Ha. lia.
Qed.

(** ** add_arc_or_reduce_arc_weight *)
Lemma reduce_spec w h mid x xo y yi :
  NoDup (ga_node <$> xo) -> NoDup (ga_node <$> yi) -> lkup xo y = lkup yi x ->
  (lkup xo y = None /\ reduce_arc_if_exists w h mid x xo y yi = Some None) \/
  (exists v xo' yi', lkup xo y = Some v /\ reduce_arc_if_exists w h mid x xo y yi = Some (Some (xo', yi')) /\
     NoDup (ga_node <$> xo') /\ NoDup (ga_node <$> yi') /\
     exists v', (v' = v \/ v' = (w, h, mid)) /\ (fst (fst v') <= fst (fst v))%N /\ (fst (fst v') <= w)%N /\
       (forall z, lkup xo' z = (if decide (z = y) then Some v' else lkup xo z)) /\
       (forall z, lkup yi' z = (if decide (z = x) then Some v' else lkup yi z))).
Proof.
  intros Hx Hy Heq. unfold reduce_arc_if_exists. destruct (find_node xo y) as [oa|] eqn:Ef.
  2:{ left. split; [|done]. unfold lkup. by rewrite Ef. }
  right. destruct (find_node_Some _ _ _ Ef) as (a & Ha & Hn). rewrite Ha, bind_S.
  assert (lkup xo y = Some (val a)) as Hv by (unfold lkup; by rewrite Ef, Ha).
  destruct (decide (ga_weight a <= w)%N) as [Hle|Hgt].
  - exists (val a), xo, yi. split_and!; [done..|]. exists (val a). split_and!; [by left|done|done| |].
    + intros z. by destruct (decide (z = y)) as [->|].
    + intros z. destruct (decide (z = x)) as [->|]; congruence.
  - destruct (find_node yi x) as [ia|] eqn:Ei; [|by unfold lkup in Heq; rewrite Ef, Ei, Ha in Heq]. rewrite bind_S.
    destruct (set_arc_spec xo y oa w h mid) as (xo' & -> & Hndx & Hlx); [done..|]. rewrite bind_S.
    destruct (set_arc_spec yi x ia w h mid) as (yi' & -> & Hndy & Hly); [done..|]. rewrite bind_S.
    exists (val a), xo', yi'. split_and!; [done..|]. exists (w, h, mid). split_and!; [by right|cbn; lia|done|done|done].
Qed.

Lemma add_arc_spec n g x mid y w h :
  gok n g -> x < n -> y < n -> x <> y ->
  exists g', add_arc_or_reduce_arc_weight x mid y w h g = Some g' /\ gok n g' /\ g_level g' = g_level g /\
    exists v, (gf g x y = Some v \/ v = (w, h, mid)) /\ (forall v0, gf g x y = Some v0 -> (fst (fst v) <= fst (fst v0))%N) /\
      (fst (fst v) <= w)%N /\ forall a b, gf g' a b = upd (gf g) x y (Some v) a b.
Proof.
  intros Hg Hx Hy Hne. pose proof (gk_out n g Hg) as Hlo. pose proof (gk_in n g Hg) as Hli. pose proof (gk_mirror n g Hg) as Hmir.
  unfold add_arc_or_reduce_arc_weight. rewrite bool_decide_eq_true_2 by done. cbn [chk]. rewrite bind_S.
  destruct (lookup_lt_is_Some_2 (g_out g) x) as [xo Hxo]; [lia|]. destruct (lookup_lt_is_Some_2 (g_in g) y) as [yi Hyi]; [lia|].
  rewrite Hxo, bind_S, Hyi, bind_S.
  pose proof (gk_nd_out n g Hg _ _ Hxo) as Hndx. pose proof (gk_nd_in n g Hg _ _ Hyi) as Hndy.
  assert (lkup xo y = lkup yi x) as Heq.
  { pose proof (Hmir x y) as H. by rewrite (fo_lookup _ _ _ _ Hxo), (fo_lookup _ _ _ _ Hyi) in H. }
  set (r := if decide (length xo <= length yi) then reduce_arc_if_exists w h mid x xo y yi
            else o ← reduce_arc_if_exists w h mid y yi x xo; Some (option_map prod_swap o)).
  assert ((lkup xo y = None /\ r = Some None) \/
    (exists v xo' yi', lkup xo y = Some v /\ r = Some (Some (xo', yi')) /\
     NoDup (ga_node <$> xo') /\ NoDup (ga_node <$> yi') /\
     exists v', (v' = v \/ v' = (w, h, mid)) /\ (fst (fst v') <= fst (fst v))%N /\ (fst (fst v') <= w)%N /\
       (forall z, lkup xo' z = (if decide (z = y) then Some v' else lkup xo z)) /\
       (forall z, lkup yi' z = (if decide (z = x) then Some v' else lkup yi z)))) as Hr.
  { unfold r. destruct (decide (length xo <= length yi)).
    - by apply reduce_spec.
    - destruct (reduce_spec w h mid y yi x xo) as [[Hn E]|(v & yi' & xo' & Hv & E & ? & ? & v' & ? & ? & ? & ? & ?)]; [done..| |]; rewrite E, bind_S; cbn.
      + left. split; [congruence|done].
      + right. exists v, xo', yi'. split; [congruence|]. split; [done|]. split; [done|]. split; [done|]. exists v'. done. }
  clearbody r. destruct Hr as [[Hn ->]|(v & xo' & yi' & Hv & -> & Hndx' & Hndy' & v' & Hv' & Hle & Hlew & Hlx & Hly)]; rewrite bind_S.
  - destruct (push_arc_spec (g_out g) x (mkGarc y w h mid) xo) as (o' & -> & Hlo' & Hndo' & Ho'); [done|by apply gk_nd_out with n|by rewrite (fo_lookup _ _ _ _ Hxo)|].
    rewrite bind_S.
    destruct (push_arc_spec (g_in g) y (mkGarc x w h mid) yi) as (i' & -> & Hli' & Hndi' & Hi'); [done|by apply gk_nd_in with n|rewrite (fo_lookup _ _ _ _ Hyi); cbn; congruence|].
    rewrite bind_S. eexists. split; [done|]. cbn [ga_node val ga_weight ga_hop ga_mid] in *. split; [|split; [done|]].
    + split; cbn; [lia|lia|by apply (gk_level n g Hg)|done|done| |].
      * intros a b. rewrite Ho', Hi'. unfold upd, val. cbn. rewrite Hmir. by destruct (decide (a = x /\ b = y)), (decide (b = y /\ a = x)); try naive_solver.
      * intros a. rewrite Ho'. unfold upd. rewrite decide_False by naive_solver. by apply (gk_noloop n g Hg).
    + exists (w, h, mid). split; [by right|]. split; [|split; [done|done]].
      intros v0. rewrite (fo_lookup _ _ _ _ Hxo). congruence.
  - rewrite (wr_Some (g_out g)) by lia. rewrite bind_S, (wr_Some (g_in g)) by lia. rewrite bind_S. eexists. split; [done|].
    assert (forall a b, fo (<[x:=xo']> (g_out g)) a b = upd (gf g) x y (Some v') a b) as Ho.
    { intros a b. rewrite fo_insert by lia. unfold upd. destruct (decide (a = x)) as [->|].
      - rewrite Hlx, <- (fo_lookup _ _ _ _ Hxo). destruct (decide (b = y)); [by rewrite decide_True|by rewrite decide_False by naive_solver].
      - by rewrite decide_False by naive_solver. }
    split; [|split; [done|]].
    + split; cbn; rewrite ?insert_length; [lia|lia|by apply (gk_level n g Hg)| | | |].
      * apply nd_insert; [by apply gk_nd_out with n|done].
      * apply nd_insert; [by apply gk_nd_in with n|done].
      * intros a b. rewrite Ho. rewrite fo_insert by lia. unfold upd. destruct (decide (b = y)) as [->|].
        -- rewrite Hly, <- (fo_lookup _ _ _ _ Hyi), Hmir. destruct (decide (a = x)); [by rewrite decide_True|by rewrite decide_False by naive_solver].
        -- rewrite decide_False by naive_solver. apply Hmir.
      * intros a. rewrite Ho. unfold upd. rewrite decide_False by naive_solver. by apply (gk_noloop n g Hg).
    + exists v'. rewrite (fo_lookup _ _ _ _ Hxo), Hv. split; [naive_solver|]. split; [naive_solver|]. split; [done|]. exact Ho.
Qed.

(** ** remove_all_incident_arcs *)
Lemma remove_back_arcs_spec x x_out l :
  (forall y v, l !! y = Some v -> NoDup (ga_node <$> v)) ->
  NoDup (ga_node <$> x_out) -> (forall y, y ∈ (ga_node <$> x_out) -> fo l y x <> None) ->
  exists l', remove_back_arcs x x_out l = Some l' /\ length l' = length l /\
    (forall y v, l' !! y = Some v -> NoDup (ga_node <$> v)) /\
    (forall y, y ∉ (ga_node <$> x_out) -> l' !! y = l !! y) /\
    forall y z, fo l' y z = (if decide (y ∈ (ga_node <$> x_out) /\ z = x) then None else fo l y z).
Proof.
  unfold remove_back_arcs. revert l. induction x_out as [|a x_out IH]; intros l Hnd Hx Hex; cbn [for_each].
  { exists l. split; [done|]. split; [done|]. split; [done|]. split; [done|]. intros y z. rewrite decide_False; [done|].
    intros [?%elem_of_nil ?]. done. }
  rewrite fmap_cons, NoDup_cons in Hx. destruct Hx as [Ha Hx].
  destruct (l !! ga_node a) as [v|] eqn:Hv.
  2:{ exfalso. apply (Hex (ga_node a)); [by left|]. unfold fo. by rewrite Hv. }
  pose proof (lookup_lt_Some _ _ _ Hv) as Hlt.
  cbv zeta. rewrite bind_S.
  destruct (find_node v x) as [i|] eqn:Ef.
  2:{ exfalso. apply (Hex (ga_node a)); [by left|]. rewrite (fo_lookup _ _ _ _ Hv). unfold lkup. by rewrite Ef. }
  rewrite bind_S, (wr_Some l) by done. rewrite bind_S.
  destruct (delete_arc_spec v x i) as [Hndv Hlk]; [eauto|done|].
  destruct (IH (<[ga_node a:=delete i v]> l)) as (l' & -> & Hlen & Hnd' & Hsame & Hf).
  - by apply nd_insert.
  - done.
  - intros y Hy. rewrite fo_insert by done. rewrite decide_False by congruence. apply Hex. by right.
  - exists l'. split; [done|]. rewrite insert_length in Hlen. split; [done|]. split; [done|]. split.
    + intros y Hy. rewrite fmap_cons, elem_of_cons in Hy. rewrite Hsame by naive_solver. apply list_lookup_insert_ne. naive_solver.
    + intros y z. rewrite Hf, fo_insert by done. rewrite fmap_cons.
      destruct (decide (y = ga_node a)) as [->|Hne].
      * rewrite decide_False by naive_solver. rewrite Hlk, <- (fo_lookup _ _ _ _ Hv).
        destruct (decide (z = x)) as [->|]; [rewrite decide_True; [done|]|rewrite decide_False; [done|naive_solver]]. split; [by left|done].
      * destruct (decide (y ∈ ga_node <$> x_out /\ z = x)) as [[? ->]|Hn2].
        -- rewrite decide_True; [done|]. split; [by right|done].
        -- rewrite decide_False; [done|]. rewrite elem_of_cons. naive_solver.
Qed.

Lemma remove_all_spec n g x :
  gok n g -> x < n ->
  exists g', remove_all_incident_arcs x g = Some g' /\ gok n g' /\ g_level g' = g_level g /\
    forall u v, gf g' u v = (if decide (u = x \/ v = x) then None else gf g u v).
Proof.
  intros Hg Hx. pose proof (gk_out n g Hg) as Hlo. pose proof (gk_in n g Hg) as Hli. pose proof (gk_mirror n g Hg) as Hmir.
  unfold remove_all_incident_arcs.
  destruct (lookup_lt_is_Some_2 (g_out g) x) as [xo Hxo]; [lia|]. destruct (lookup_lt_is_Some_2 (g_in g) x) as [xi Hxi]; [lia|].
  rewrite Hxo, bind_S.
  pose proof (gk_nd_out n g Hg _ _ Hxo) as Hndx. pose proof (gk_nd_in n g Hg _ _ Hxi) as Hndy.
  assert (forall y, y ∈ (ga_node <$> xo) <-> gf g x y <> None) as Hin_o.
  { intros y. rewrite (fo_lookup _ _ _ _ Hxo). pose proof (lkup_None xo y) as H. destruct (lkup xo y); [|naive_solver].
    split; [done|]. intros _. apply dec_stable. naive_solver. }
  assert (forall y, y ∈ (ga_node <$> xi) <-> gf g y x <> None) as Hin_i.
  { intros y. rewrite Hmir, (fo_lookup _ _ _ _ Hxi). pose proof (lkup_None xi y) as H. destruct (lkup xi y); [|naive_solver].
    split; [done|]. intros _. apply dec_stable. naive_solver. }
  destruct (remove_back_arcs_spec x xo (g_in g)) as (i & -> & Hli' & Hndi & Hsi & Hfi); [by apply gk_nd_in with n|done| |].
  { intros y. rewrite <- Hmir. apply Hin_o. }
  rewrite bind_S, Hsi, Hxi, bind_S by (rewrite Hin_o, (gk_noloop n g Hg); naive_solver).
  destruct (remove_back_arcs_spec x xi (g_out g)) as (o & -> & Hlo' & Hndo & Hso & Hfo); [by apply gk_nd_out with n|done| |].
  { intros y. apply Hin_i. }
  rewrite bind_S, (wr_Some i) by lia. rewrite bind_S, (wr_Some o) by lia. rewrite bind_S.
  eexists. split; [done|].
  assert (forall u v, fo (<[x:=[]]> o) u v = (if decide (u = x \/ v = x) then None else gf g u v)) as HO.
  { intros u v. rewrite fo_insert by lia. destruct (decide (u = x)) as [->|Hu].
    - by rewrite decide_True by naive_solver.
    - rewrite Hfo. destruct (decide (v = x)) as [->|].
      + rewrite (decide_True (P := u = x \/ x = x)) by naive_solver. destruct (decide (u ∈ ga_node <$> xi /\ x = x)) as [|Hn]; [done|].
        destruct (gf g u x) eqn:E; [|done]. exfalso. apply Hn. split; [|done]. apply Hin_i. by rewrite E.
      + rewrite decide_False by naive_solver. by rewrite decide_False by naive_solver. }
  assert (forall u v, fo (<[x:=[]]> i) v u = (if decide (u = x \/ v = x) then None else gf g u v)) as HI.
  { intros u v. rewrite fo_insert by lia. destruct (decide (v = x)) as [->|Hv].
    - by rewrite decide_True by naive_solver.
    - rewrite Hfi. destruct (decide (u = x)) as [->|].
      + rewrite (decide_True (P := x = x \/ v = x)) by naive_solver. destruct (decide (v ∈ ga_node <$> xo /\ x = x)) as [|Hn]; [done|].
        rewrite <- Hmir. destruct (gf g x v) eqn:E; [|done]. exfalso. apply Hn. split; [|done]. apply Hin_o. by rewrite E.
      + rewrite decide_False by naive_solver. rewrite decide_False by naive_solver. by rewrite Hmir. }
  split; [|split; [done|done]]. split; cbn; rewrite ?insert_length; [lia|lia|by apply (gk_level n g Hg)| | | |].
  - apply nd_insert; [done|apply NoDup_nil_2].
  - apply nd_insert; [done|apply NoDup_nil_2].
  - intros u v. by rewrite HO, HI.
  - intros u. rewrite HO. rewrite (gk_noloop n g Hg). by destruct (decide _).
Qed.

Lemma raise_level_spec n g x l :
  gok n g -> x < n -> exists g', raise_level g x l = Some g' /\ gok n g' /\ g_out g' = g_out g /\ g_in g' = g_in g.
Proof.
  intros Hg Hx. unfold raise_level. destruct (lookup_lt_is_Some_2 (g_level g) x) as [l0 Hl]; [rewrite (gk_level n g Hg); lia|].
  rewrite Hl, bind_S. destruct (decide (l0 <= l)%N).
  - rewrite (wr_Some (g_level g)) by (rewrite (gk_level n g Hg); lia). rewrite bind_S. eexists. split; [done|]. cbn. split; [|done].
    destruct Hg. split; cbn; try done. by rewrite insert_length.
  - eexists. split; [done|]. done.
Qed.
