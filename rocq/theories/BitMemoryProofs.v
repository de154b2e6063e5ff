(** Proofs about BitMemoryModel. *)
From stdpp Require Import gmap.
From Verif Require Import Base BitVectorModel BitVectorSpec BitVectorProofs BitVectorBulkProofs BitMemoryModel BitMemorySpec.
Ltac Zify.zify_post_hook ::= idtac.

(** ** Updates of one variable, exchanging two *)
Definition slot_ok (h : gmap nat (list N)) (x : option obj) (y : option (list bool)) : Prop :=
  match x, y with Some o, Some l => exists v, view h o = Some v /\ bv_rep v l | None, None => True | _, _ => False end.
Lemma view_same h h' o : (forall p, fst o = Some p -> h' !! p = h !! p) -> view h' o = view h o.
Proof. unfold view. destruct (fst o) as [p|]; [|done]. intros H. by rewrite H. Qed.
Lemma holds_slot s A i : holds s A -> i < length A -> exists x y, vars s !! i = Some x /\ A !! i = Some y /\ slot_ok (heap s) x y.
Proof.
  intros H Hi. destruct (lookup_lt_is_Some_2 A i Hi) as [y Hy]. destruct (lookup_lt_is_Some_2 (vars s) i) as [x Hx]; [by rewrite (holds_length _ _ H)|].
  exists x, y. split; [done|]. split; [done|]. destruct x as [o|], y as [l|]; cbn.
  - by eapply holds_value.
  - apply (holds_dead _ _ H) in Hy. congruence.
  - apply (holds_dead _ _ H) in Hx. congruence.
  - done.
Qed.
Lemma holds_update s A i x y h' : holds s A -> i < length A -> slot_ok h' x y ->
  (forall j p, j <> i -> owns s j p -> h' !! p = heap s !! p) ->
  (forall p n, x = Some (Some p, n) -> forall j, j <> i -> ~ owns s j p) ->
  (forall p, is_Some (h' !! p) -> (exists n, x = Some (Some p, n)) \/ exists j, j <> i /\ owns s j p) ->
  holds (mkBmem h' (<[i := x]> (vars s))) (<[i := y]> A).
Proof.
  intros H Hi Hxy Ho Ha Hall. pose proof (holds_length _ _ H) as Hlen.
  assert (forall j p, owns (mkBmem h' (<[i := x]> (vars s))) j p <-> (j = i /\ exists n, x = Some (Some p, n)) \/ (j <> i /\ owns s j p)) as Hown.
  { intros j p. unfold owns. cbn. destruct (decide (j = i)) as [-> |Hne].
    - rewrite list_lookup_insert by lia. split; [intros [n [= Hx]]; left; eauto|intros [[_ [n ->]]|[? _]]; [eauto|done]].
    - rewrite list_lookup_insert_ne by done. split; [intros; right; eauto|intros [[? _]|[_ ?]]; done]. }
  constructor; cbn.
  - by rewrite !insert_length.
  - intros j. destruct (decide (j = i)) as [-> |Hne].
    + rewrite !list_lookup_insert by lia. destruct x, y; cbn in Hxy; try done; split; congruence.
    + rewrite !list_lookup_insert_ne by done. apply H.
  - intros j o l Hj Hl. destruct (decide (j = i)) as [-> |Hne].
    + rewrite list_lookup_insert in Hj by lia. rewrite list_lookup_insert in Hl by lia. simplify_eq. done.
    + rewrite list_lookup_insert_ne in Hj by done. rewrite list_lookup_insert_ne in Hl by done. destruct (holds_value _ _ H _ _ _ Hj Hl) as (v & Hv & Hr). exists v. split; [|done]. rewrite <- Hv. apply view_same. intros p Hp. apply (Ho j); [done|].
      exists (snd o). rewrite Hj, <- Hp. by destruct o.
  - intros j k p Hj Hk. apply Hown in Hj, Hk. destruct Hj as [[-> [n Hx]]|[Hj Hj']], Hk as [[-> [m Hx']]|[Hk Hk']]; try done.
    + exfalso. by eapply Ha.
    + exfalso. by eapply Ha.
    + by eapply H.
  - intros p Hp. destruct (Hall p Hp) as [Hx|(j & Hj & Hj')]; [exists i|exists j]; apply Hown; auto.
Qed.
Lemma holds_swap s A i j x y a b : holds s A -> i <> j -> vars s !! i = Some x -> vars s !! j = Some y -> A !! i = Some a -> A !! j = Some b ->
  holds (mkBmem (heap s) (<[j := x]> (<[i := y]> (vars s)))) (<[j := a]> (<[i := b]> A)).
Proof.
  intros H Hne Hx Hy Ha Hb. pose proof (holds_length _ _ H) as Hlen.
  pose proof (lookup_lt_Some _ _ _ Ha) as Hi. pose proof (lookup_lt_Some _ _ _ Hb) as Hj.
  set (t k := if decide (k = i) then j else if decide (k = j) then i else k).
  assert (forall k, <[j := x]> (<[i := y]> (vars s)) !! k = vars s !! t k) as E1.
  { intros k. unfold t. destruct (decide (k = i)) as [-> |]; [rewrite list_lookup_insert_ne, list_lookup_insert by (done || lia); done|].
    destruct (decide (k = j)) as [-> |]; [rewrite list_lookup_insert by (rewrite insert_length; lia); done|]. by rewrite !list_lookup_insert_ne. }
  assert (forall k, <[j := a]> (<[i := b]> A) !! k = A !! t k) as E2.
  { intros k. unfold t. destruct (decide (k = i)) as [-> |]; [rewrite list_lookup_insert_ne, list_lookup_insert by (done || lia); done|].
    destruct (decide (k = j)) as [-> |]; [rewrite list_lookup_insert by (rewrite insert_length; lia); done|]. by rewrite !list_lookup_insert_ne. }
  assert (forall k, t (t k) = k) as Ht by (intros k; unfold t; repeat destruct (decide _); congruence).
  constructor; cbn.
  - by rewrite !insert_length.
  - intros k. rewrite E1, E2. apply H.
  - intros k o l. rewrite E1, E2. by eapply holds_value.
  - intros k m p [n1 Hk] [n2 Hm]. cbn in Hk, Hm. rewrite E1 in Hk. rewrite E1 in Hm. rewrite <- (Ht k), <- (Ht m). f_equal. eapply (holds_alone _ _ H); [by exists n1|by exists n2].
  - intros p Hp. destruct (holds_all _ _ H p Hp) as (k & n & Hk). exists (t k). exists n. cbn. by rewrite E1, Ht.
Qed.
(** ** Objects *)
Lemma view_rep_some v l h p : bv_rep v l -> h !! p = Some (bv_data v) -> exists v', view h (Some p, bv_size v) = Some v' /\ bv_rep v' l.
Proof. intros [] Hp. unfold view. cbn. rewrite Hp, bind_S. eexists. split; [done|]. by constructor. Qed.
Lemma view_rep_null v l h : bv_rep v l -> l = [] -> exists v', view h (None, bv_size v) = Some v' /\ bv_rep v' l.
Proof.
  intros H ->. assert (bv_data v = []) as Hd by (apply length_zero_iff_nil; by rewrite (rep_len _ _ H)). unfold view. cbn [fst snd]. eexists. split; [done|].
  constructor; cbn [bv_size bv_data bv_null]; [apply (rep_size _ _ H)|done|done| |done]. intros x. rewrite <- (rep_bits _ _ H x). by rewrite Hd.
Qed.
Lemma owned_block s A i p : holds s A -> owns s i p -> exists d, heap s !! p = Some d.
Proof.
  intros H [n Hn]. pose proof (lookup_lt_Some _ _ _ Hn) as Hi. rewrite (holds_length _ _ H) in Hi. destruct (holds_slot _ _ _ H Hi) as (x & y & Hx & Hy & Hs). rewrite Hn in Hx. injection Hx as <-.
  destruct y; cbn in Hs; [|done]. destruct Hs as (v & Hv & _). unfold view in Hv. cbn in Hv. destruct (heap s !! p); [by eexists|done].
Qed.
Lemma put_lt s i h o : i < length (vars s) -> put s i h o = Some (mkBmem h (<[i := o]> (vars s))).
Proof. intros Hi. unfold put. rewrite wr_Some by done. by rewrite bind_S. Qed.
Lemma val_Some A i l : val A i = Some l <-> A !! i = Some (Some l).
Proof. unfold val. destruct (A !! i) as [[]|]; split; congruence. Qed.
Lemma born_Some A i l A' : born A i l = Some A' <-> A !! i = Some None /\ A' = <[i := Some l]> A.
Proof. unfold born. destruct (A !! i) as [[]|]; split; [done|by intros [? _]|by intros [= <-]|by intros [_ ->]|done|by intros [? _]]. Qed.
Lemma changed_Some A i l A' : changed A i l = Some A' <-> (exists k, A !! i = Some (Some k)) /\ A' = <[i := Some l]> A.
Proof. unfold changed. destruct (A !! i) as [[k|]|]; split; [intros [= <-]; eauto|by intros [_ ->]|done|by intros [[? ?] _]|done|by intros [[? ?] _]]. Qed.
Lemma get_of s A i l : holds s A -> A !! i = Some (Some l) -> exists o v, vars s !! i = Some (Some o) /\ get s i = Some o /\ view (heap s) o = Some v /\ bv_rep v l.
Proof.
  intros H Hl. destruct (holds_slot _ _ i H) as (x & y & Hx & Hy & Hs); [by eapply lookup_lt_Some|]. rewrite Hl in Hy. injection Hy as <-. destruct x as [o|]; cbn in Hs; [|done].
  destruct Hs as (v & Hv & Hr). exists o, v. split; [done|]. split; [|done]. unfold get. by rewrite Hx.
Qed.
Lemma free_of s A i : holds s A -> A !! i = Some None -> vars s !! i = Some None /\ free_slot s i = Some tt.
Proof. intros H Hl. apply (holds_dead _ _ H) in Hl. split; [done|]. unfold free_slot. by rewrite Hl. Qed.

Section exec.
Context (alloc : nat -> gmap nat (list N) -> option nat) (garbage : nat -> list N) (Halloc : allocator alloc) (Hgarbage : words_of_memory garbage).
(** A new object *)
Definition new_in (h : gmap nat (list N)) (o : obj) (h' : gmap nat (list N)) (l : list bool) : Prop :=
  (exists v, view h' o = Some v /\ bv_rep v l) /\ ((fst o = None /\ h' = h) \/ exists p d, fst o = Some p /\ h !! p = None /\ h' = <[p := d]> h).
Lemma construct_spec v l h : bv_rep v l -> exists r, construct alloc v h = Some r /\ (r = None -> exists n, alloc n h = None) /\ forall o h', r = Some (o, h') -> new_in h o h' l.
Proof.
  intros H. unfold construct. destruct (bv_null v) eqn:En.
  - eexists. split; [done|]. split; [done|]. intros o h' [= <- <-]. split; [|by left]. by eapply view_rep_null, rep_null.
  - unfold allocate. destruct (alloc _ h) as [p|] eqn:E.
    + rewrite (Halloc _ _ _ E), bind_S. eexists. split; [done|]. split; [done|]. intros o h' [= <- <-]. split; [|right; exists p, (bv_data v); split; [done|]; split; [by eapply Halloc|done]].
      apply view_rep_some; [done|]. by rewrite lookup_insert.
    + rewrite bind_S. eexists. split; [done|]. split; [|done]. intros _. eauto.
Qed.
Lemma copy_object_spec o v l h : view h o = Some v -> bv_rep v l ->
  exists r, copy_object alloc o h = Some r /\ (r = None -> exists n, alloc n h = None) /\ forall o' h', r = Some (o', h') -> new_in h o' h' l.
Proof.
  intros Hv Hr. unfold copy_object. rewrite Hv, bind_S. destruct (copy_spec true v l Hr (or_introl eq_refl)) as (c & -> & Hc & _). rewrite bind_S. by apply construct_spec.
Qed.
Lemma birth s A i o h' l : holds s A -> A !! i = Some None -> new_in (heap s) o h' l -> exists s', put s i h' (Some o) = Some s' /\ holds s' (<[i := Some l]> A).
Proof.
  intros H Hi [Hv Hn]. destruct (free_of _ _ _ H Hi) as [Hx _]. pose proof (lookup_lt_Some _ _ _ Hx) as Hlt. rewrite put_lt by done. eexists. split; [done|].
  apply holds_update; [done|by eapply lookup_lt_Some|done|..].
  - intros j p Hj Hp. destruct Hn as [[_ ->]|(q & d & _ & Hq & ->)]; [done|]. destruct (owned_block _ _ _ _ H Hp) as [d' Hd]. rewrite lookup_insert_ne by congruence. done.
  - intros p n [= ->] j Hj Hp. destruct Hn as [[? _]|(q & d & [= ->] & Hq & _)]; [done|]. destruct (owned_block _ _ _ _ H Hp) as [d' Hd]. congruence.
  - intros p Hp. assert (is_Some (heap s !! p) -> exists j, j <> i /\ owns s j p) as Hold.
    { intros [j [n Hj]]%(holds_all _ _ H). exists j. split; [|by exists n]. intros ->. congruence. }
    destruct Hn as [[Ho ->]|(q & d & Ho & Hq & ->)]; [auto|]. destruct (decide (p = q)) as [-> |Hne]; [left; exists (snd o); rewrite <- Ho; by destruct o|]. rewrite lookup_insert_ne in Hp by done. auto.
Qed.
Lemma rebirth s A i old o h' l : holds s A -> vars s !! i = Some (Some old) -> new_in (heap s) o h' l ->
  exists h'' s', release (fst old) h' = Some h'' /\ put s i h'' (Some o) = Some s' /\ holds s' (<[i := Some l]> A).
Proof.
  intros H Hi [Hv Hn]. pose proof (lookup_lt_Some _ _ _ Hi) as Hlt.
  assert (forall q, fst old = Some q -> owns s i q) as Hown by (intros q Hq; exists (snd old); rewrite Hi, <- Hq; by destruct old).
  assert (forall p, is_Some (heap s !! p) -> fst old = Some p \/ exists j, j <> i /\ owns s j p) as Hold.
  { intros p [j [n Hj]]%(holds_all _ _ H). destruct (decide (j = i)) as [-> |Hne]; [left; rewrite Hi in Hj; by injection Hj as ->|]. right. exists j. split; [done|by exists n]. }
  assert (exists h'', release (fst old) h' = Some h'' /\ forall p, h'' !! p = if decide (fst old = Some p) then None else h' !! p) as (h'' & Hrel & Hh).
  { destruct (fst old) as [q|] eqn:Eq; cbn.
    - destruct (owned_block _ _ _ _ H (Hown q eq_refl)) as [d Hd]. assert (exists d', h' !! q = Some d') as [d' ->].
      { destruct Hn as [[_ ->]|(p & d' & _ & Hp & ->)]; [by eexists|]. rewrite lookup_insert_ne by congruence. by eexists. }
      rewrite bind_S. eexists. split; [done|]. intros p. destruct (decide (Some q = Some p)) as [[= <-]|Hne]; [by rewrite lookup_delete|]. rewrite lookup_delete_ne by congruence. done.
    - eexists. split; [done|]. intros p. by rewrite decide_False. }
  exists h''. rewrite Hrel, put_lt by done. eexists. split; [done|]. split; [done|].
  apply holds_update; [done|rewrite <- (holds_length _ _ H); done|..].
  - cbn. destruct Hv as (v & Hv & Hr). exists v. split; [|done]. rewrite <- Hv. apply view_same. intros p Hp. rewrite Hh. destruct (decide _) as [Eq|]; [|done]. exfalso.
    destruct Hn as [[? _]|(q & d & Ho & Hq & _)]; [congruence|]. assert (q = p) as -> by congruence. destruct (owned_block _ _ _ _ H (Hown p Eq)) as [d' Hd]. congruence.
  - intros j p Hj Hp. rewrite Hh. destruct (decide _) as [Eq|_]; [exfalso; apply Hj; eapply (holds_alone _ _ H); [exact Hp|by apply Hown]|].
    destruct Hn as [[_ ->]|(q & d & _ & Hq & ->)]; [done|]. destruct (owned_block _ _ _ _ H Hp) as [d' Hd]. by rewrite lookup_insert_ne by congruence.
  - intros p n [= ->] j Hj Hp. destruct Hn as [[? _]|(q & d & [= ->] & Hq & _)]; [done|]. destruct (owned_block _ _ _ _ H Hp) as [d' Hd]. congruence.
  - intros p Hp. rewrite Hh in Hp. destruct (decide _) as [|Hne]; [by destruct Hp|]. destruct Hn as [[Ho ->]|(q & d & Ho & Hq & ->)].
    + destruct (Hold p Hp) as [?|?]; [done|by right].
    + destruct (decide (p = q)) as [-> |Hpq]; [left; exists (snd o); rewrite <- Ho; by destruct o|]. rewrite lookup_insert_ne in Hp by done. destruct (Hold p Hp) as [?|?]; [done|by right].
Qed.
Lemma store_spec s A i o v l v' l' : holds s A -> vars s !! i = Some (Some o) -> view (heap s) o = Some v -> bv_rep v l -> bv_rep v' l' -> (l = [] -> l' = []) ->
  exists o' h' s', store o v' (heap s) = Some (o', h') /\ put s i h' (Some o') = Some s' /\ holds s' (<[i := Some l']> A).
Proof.
  intros H Hi Hv Hr Hr' Hl. pose proof (lookup_lt_Some _ _ _ Hi) as Hlt. unfold store. unfold view in Hv. destruct o as [[p|] n]; cbn in *.
  - destruct (heap s !! p) as [d|] eqn:Hp; [|done]. rewrite bind_S. do 3 eexists. split; [done|]. rewrite put_lt by done. split; [done|].
    assert (owns s i p) as Hown by (by exists n).
    apply holds_update; [done|rewrite <- (holds_length _ _ H); done|..].
    + cbn. apply view_rep_some; [done|]. by rewrite lookup_insert.
    + intros j q Hj Hq. rewrite lookup_insert_ne; [done|]. intros ->. apply Hj. by eapply (holds_alone _ _ H).
    + intros q m [= <- <-] j Hj Hq. apply Hj. by eapply (holds_alone _ _ H).
    + intros q Hq. destruct (decide (q = p)) as [-> |Hne]; [left; by eexists|]. rewrite lookup_insert_ne in Hq by done. destruct (holds_all _ _ H q Hq) as (j & m & Hj). right. exists j. split; [|by exists m]. intros ->. congruence.
  - simplify_eq. assert (l = []) as El by (by apply (rep_null _ _ Hr)). pose proof (Hl El) as ->. assert (bv_data v' = []) as Hd by (apply length_zero_iff_nil; by rewrite (rep_len _ _ Hr')).
    rewrite bool_decide_true by done. cbn. do 3 eexists. split; [done|]. rewrite put_lt by done. split; [done|].
    apply holds_update; [done|rewrite <- (holds_length _ _ H); done|..].
    + exact (view_rep_null _ _ _ Hr' eq_refl).
    + done.
    + done.
    + intros q Hq. destruct (holds_all _ _ H q Hq) as (j & m & Hj). right. exists j. split; [|by exists m]. intros ->. congruence.
Qed.
(** ** Operations *)
Definition good (s : bmem) (A' : values) (out : option outcome) : Prop :=
  exists r, out = Some r /\ match r with Done s' => holds s' A' | Thrown s' => s' = s /\ exists n, alloc n (heap s) = None end.
Lemma finish_birth s A i r l : holds s A -> A !! i = Some None -> (r = None -> exists n, alloc n (heap s) = None) -> (forall o h', r = Some (o, h') -> new_in (heap s) o h' l) ->
  good s (<[i := Some l]> A) (finish s i r).
Proof.
  intros H Hi H1 H2. destruct r as [[o h']|]; cbn.
  - destruct (birth _ _ _ _ _ _ H Hi (H2 _ _ eq_refl)) as (s' & -> & Hs). rewrite bind_S. eexists. by split.
  - eexists. split; [done|]. split; [done|]. auto.
Qed.
Lemma finish_store s A i o v l v' l' : holds s A -> vars s !! i = Some (Some o) -> view (heap s) o = Some v -> bv_rep v l -> bv_rep v' l' -> (l = [] -> l' = []) ->
  good s (<[i := Some l']> A) (r ← store o v' (heap s); finish s i (Some r)).
Proof.
  intros H Hi Hv Hr Hr' Hl. destruct (store_spec _ _ _ _ _ _ _ _ H Hi Hv Hr Hr' Hl) as (o' & h' & s' & -> & Hp & Hs). rewrite bind_S. cbn. rewrite Hp, bind_S. eexists. by split.
Qed.
Lemma u8_zero n : u8_count n = u8_count 0 -> n = 0.
Proof.
  intros H. destruct n as [|n]; [done|]. exfalso. unfold u8_count, v8_count in H. change ((0 + 511) / 512 * 64) with 0 in H.
  assert (0 < (S n + 511) / 512) as Hd by (apply Nat.div_str_pos; lia). lia.
Qed.
Lemma finish_resize s A i o n v l v' l' : holds s A -> vars s !! i = Some (Some o) -> view (heap s) o = Some v -> bv_rep v l -> bv_rep v' l' -> length l' = n ->
  good s (<[i := Some l']> A) (r ← resize_object alloc o n v' (heap s); finish s i r).
Proof.
  intros H Hi Hv Hr Hr' Hn. unfold resize_object. destruct (match fst o with None => false | Some _ => _ end) eqn:E.
  - destruct (store_spec s A i o v l v' l' H Hi Hv Hr Hr') as (o' & h' & s' & -> & Hp & Hs).
    { intros ->. destruct o as [[p|] m]; cbn [fst snd] in E; [|done]. apply bool_decide_eq_true in E. pose proof (rep_size _ _ Hr) as Hs. unfold view in Hv. cbn in Hv. destruct (heap s !! p); [|done]. rewrite bind_S in Hv. simplify_eq. cbn in Hs. subst m.
      apply u8_zero in E. by apply length_zero_iff_nil. }
    rewrite !bind_S. cbn. rewrite Hp, bind_S. eexists. by split.
  - destruct (construct_spec v' l' (heap s) Hr') as (r & -> & H1 & H2). rewrite bind_S. destruct r as [[o' h']|].
    + destruct (rebirth _ _ _ _ _ _ _ H Hi (H2 _ _ eq_refl)) as (h'' & s' & -> & Hp & Hs). rewrite !bind_S. cbn. rewrite Hp, bind_S. eexists. by split.
    + rewrite bind_S. cbn. eexists. split; [done|]. split; [done|]. auto.
Qed.
(** The contents of [j] go to [i], which has no memory. *)
Lemma transfer s A i j o l x a : holds s A -> i <> j -> vars s !! j = Some (Some o) -> A !! j = Some (Some l) -> vars s !! i = Some x -> A !! i = Some a -> (forall p n, x <> Some (Some p, n)) ->
  holds (mkBmem (heap s) (<[j := Some (None, 0)]> (<[i := Some o]> (vars s)))) (<[j := Some []]> (<[i := Some l]> A)).
Proof.
  intros H Hne Hj Hl Hx Ha Hno. pose proof (holds_swap _ _ _ _ _ _ _ _ H Hne Hx Hj Ha Hl) as Hs.
  assert (j < length (vars s)) as Hjl by (by eapply lookup_lt_Some).
  pose proof (holds_update _ _ j (Some (None, 0)) (Some []) (heap s) Hs) as Hu. cbn in Hu. rewrite !list_insert_insert in Hu. apply Hu.
  - rewrite !insert_length, <- (holds_length _ _ H). done.
  - eexists. split; [done|]. apply rep_empty.
  - done.
  - done.
  - intros p Hp. right. destruct (holds_all _ _ Hs p Hp) as (k & n & Hk). exists k. split; [|by exists n]. intros ->. cbn in Hk. rewrite list_lookup_insert in Hk by (by rewrite insert_length). injection Hk as ->. by eapply Hno.
Qed.
Lemma binary_spec f v l w k : bv_rep v l -> bv_rep w k -> length l = length k -> exists v', binary_call f v w = Some v' /\ bv_rep v' (zip_with (bits_of f) l k).
Proof. intros H1 H2 E. destruct f; [by apply or_spec|by apply and_spec|by apply xor_spec]. Qed.
Lemma zip_nil {A B C} (f : A -> B -> C) l k : l = [] -> zip_with f l k = [].
Proof. by intros ->. Qed.
Lemma exec_spec o s A A' : holds s A -> means o A = Some A' -> good s A' (exec alloc garbage o s).
Proof.
  intros H Hm. destruct o as [i|i n b|i n f|i j|i j|i|i j|i j|i j|i n b|i n|i f|f i j|f r i j|f r i j]; cbn [means exec] in *.
  - apply born_Some in Hm as [Hi ->]. rewrite (proj2 (free_of _ _ _ H Hi)), bind_S. apply finish_birth; [done|done|done|]. intros o h' [= <- <-]. split; [|by left]. eexists. split; [done|]. apply rep_empty.
  - apply born_Some in Hm as [Hi ->]. rewrite (proj2 (free_of _ _ _ H Hi)), bind_S. destruct (new_spec n b) as (v & -> & Hv & _). rewrite bind_S.
    destruct (construct_spec v _ (heap s) Hv) as (r & -> & H1 & H2). rewrite bind_S. by apply finish_birth.
  - apply born_Some in Hm as [Hi ->]. rewrite (proj2 (free_of _ _ _ H Hi)), bind_S. destruct (Hgarbage (u64_count n)) as [G1 G2]. destruct (make_spec (garbage (u64_count n)) n f G1 G2) as (v & -> & Hv). rewrite bind_S.
    destruct (construct_spec v _ (heap s) Hv) as (r & -> & H1 & H2). rewrite bind_S. by apply finish_birth.
  - destruct (val A j) as [l|] eqn:Ej; [|done]. apply val_Some in Ej. apply born_Some in Hm as [Hi ->]. rewrite (proj2 (free_of _ _ _ H Hi)), bind_S.
    destruct (get_of _ _ _ _ H Ej) as (o & v & _ & -> & Hv & Hr). rewrite bind_S. destruct (copy_object_spec o v l (heap s) Hv Hr) as (r & -> & H1 & H2). rewrite bind_S. by apply finish_birth.
  - destruct (val A j) as [l|] eqn:Ej; [|done]. apply val_Some in Ej. destruct (born A i l) as [A1|] eqn:Eb; [|done]. apply born_Some in Eb as [Hi ->]. apply changed_Some in Hm as [_ ->].
    destruct (free_of _ _ _ H Hi) as [Hx ->]. rewrite bind_S. destruct (get_of _ _ _ _ H Ej) as (o & v & Hj & -> & Hv & Hr). rewrite bind_S. cbn.
    rewrite put_lt by (by eapply lookup_lt_Some). rewrite bind_S. rewrite put_lt by (cbn; rewrite insert_length; by eapply lookup_lt_Some). rewrite bind_S. cbn. eexists. split; [done|].
    eapply transfer; try done. intros ->. congruence.
  - destruct (val A i) as [l|] eqn:Ei; [|done]. apply val_Some in Ei. simplify_eq. destruct (get_of _ _ _ _ H Ei) as (o & v & Hi & -> & Hv & Hr). rewrite bind_S.
    assert (exists h', release (fst o) (heap s) = Some h' /\ forall p, h' !! p = if decide (fst o = Some p) then None else heap s !! p) as (h' & -> & Hh).
    { unfold view in Hv. destruct (fst o) as [q|]; cbn.
      - destruct (heap s !! q); [|done]. rewrite bind_S. eexists. split; [done|]. intros p. destruct (decide (Some q = Some p)) as [[= <-]|Hne]; [by rewrite lookup_delete|]. rewrite lookup_delete_ne by congruence. done.
      - eexists. split; [done|]. intros p. by rewrite decide_False. }
    rewrite bind_S, put_lt by (by eapply lookup_lt_Some). rewrite bind_S. eexists. split; [done|]. apply holds_update; [done|by eapply lookup_lt_Some|done|..].
    + intros j p Hj Hp. rewrite Hh. destruct (decide _) as [E|]; [|done]. exfalso. apply Hj. eapply (holds_alone _ _ H); [done|]. exists (snd o). rewrite Hi, <- E. by destruct o.
    + done.
    + intros p Hp. rewrite Hh in Hp. destruct (decide _) as [|Hne]; [by destruct Hp|]. destruct (holds_all _ _ H p Hp) as (j & n & Hj). right. exists j. split; [|by exists n]. intros ->. rewrite Hi in Hj. injection Hj as ->. done.
  - destruct (val A j) as [l|] eqn:Ej; [|done]. apply val_Some in Ej. apply changed_Some in Hm as [[k Hk] ->]. destruct (get_of _ _ _ _ H Ej) as (o & v & Hj & -> & Hv & Hr). rewrite bind_S.
    destruct (get_of _ _ _ _ H Hk) as (old & u & Hi & -> & _). rewrite bind_S. destruct (copy_object_spec o v l (heap s) Hv Hr) as (r & -> & H1 & H2). rewrite bind_S.
    destruct r as [[o' h']|]; [|eexists; split; [done|]; split; [done|]; auto].
    destruct (rebirth _ _ _ _ _ _ _ H Hi (H2 _ _ eq_refl)) as (h'' & s' & -> & Hp & Hs). rewrite bind_S, Hp, bind_S. eexists. by split.
  - destruct (val A j) as [l|] eqn:Ej; [|done]. apply val_Some in Ej. destruct (changed A j []) as [A1|] eqn:Eb; [|done]. apply changed_Some in Eb as [_ ->]. apply changed_Some in Hm as [[k Hk] ->].
    destruct (get_of _ _ _ _ H Ej) as (o & v & Hj & -> & Hv & Hr). pose proof (lookup_lt_Some _ _ _ Hj) as Hjl. rewrite bind_S. cbn. rewrite put_lt by done. rewrite bind_S.
    destruct (decide (i = j)) as [-> |Hne].
    + unfold get. cbn. rewrite list_lookup_insert by done. rewrite !bind_S. cbn. rewrite put_lt by (cbn; by rewrite insert_length). rewrite bind_S. eexists. split; [done|]. cbn. rewrite !list_insert_insert, !list_insert_id by done. by destruct s.
    + rewrite list_lookup_insert_ne in Hk by done. destruct (get_of _ _ _ _ H Hk) as (old & u & Hi & Hg & Hu & Hru). pose proof (lookup_lt_Some _ _ _ Hi) as Hil.
      unfold get. cbn. rewrite list_lookup_insert_ne by done. rewrite Hi. rewrite !bind_S.
      destruct (rebirth s A i old (None, 0) (heap s) [] H Hi) as (h' & s1 & Hrel & Hp & Hs1).
      { split; [|by left]. eexists. split; [done|]. apply rep_empty. }
      rewrite Hrel, bind_S. rewrite put_lt in Hp by done. injection Hp as <-. rewrite put_lt by (cbn; by rewrite insert_length). rewrite bind_S. eexists. split; [done|]. cbn.
      assert (i < length A) as HiA by (by eapply lookup_lt_Some).
      pose proof (transfer _ _ i j o l (Some (None, 0)) (Some []) Hs1 Hne) as Ht. cbn in Ht. rewrite !list_lookup_insert_ne, !list_lookup_insert in Ht by done.
      rewrite !list_insert_insert in Ht. rewrite (list_insert_commute (vars s)), (list_insert_commute A) by done. apply Ht; done.
  - destruct (val A i) as [l|] eqn:Ei; [|done]. destruct (val A j) as [k|] eqn:Ej; [|done]. apply val_Some in Ei, Ej. destruct (changed A i k) as [A1|] eqn:Eb; [|done]. apply changed_Some in Eb as [_ ->]. apply changed_Some in Hm as [_ ->].
    destruct (get_of _ _ _ _ H Ei) as (o & v & Hi & -> & _). destruct (get_of _ _ _ _ H Ej) as (o' & v' & Hj & -> & _). rewrite !bind_S.
    pose proof (lookup_lt_Some _ _ _ Hi) as Hil. pose proof (lookup_lt_Some _ _ _ Hj) as Hjl.
    rewrite put_lt by done. rewrite bind_S. rewrite put_lt by (cbn; by rewrite insert_length). rewrite bind_S. cbn. eexists. split; [done|]. destruct (decide (i = j)) as [-> |Hne]; [|by eapply holds_swap].
    assert (o' = o) as -> by congruence. assert (k = l) as -> by congruence. rewrite !list_insert_insert, !list_insert_id by done. by destruct s.
  - destruct (val A i) as [l|] eqn:Ei; [|done]. apply val_Some in Ei. destruct (decide _) as [Hok|]; [|done]. apply changed_Some in Hm as [_ ->]. destruct (get_of _ _ _ _ H Ei) as (o & v & Hi & -> & Hv & Hr). rewrite bind_S, Hv, bind_S.
    destruct (resize_spec v l n b Hr) as (v' & -> & Hv'); [unfold resize_ok; rewrite (rep_size _ _ Hr); tauto|]. rewrite bind_S. eapply finish_resize; try done. apply resized_length.
  - destruct (val A i) as [l|] eqn:Ei; [|done]. apply val_Some in Ei. destruct (decide _) as [Hok|]; [|done]. apply changed_Some in Hm as [_ ->]. destruct (get_of _ _ _ _ H Ei) as (o & v & Hi & -> & Hv & Hr). rewrite bind_S, Hv, bind_S.
    destruct (resize_uninit_spec (garbage (u64_count n)) v l n Hr) as (v' & -> & Hv'); [destruct (bv_null v) eqn:En; [|done]; by apply (rep_null _ _ Hr) in En|]. rewrite bind_S. eapply finish_resize; try done. apply resized_length.
  - assert (exists l l', A !! i = Some (Some l) /\ A' = <[i := Some l']> A /\ (l = [] -> l' = []) /\ forall v, bv_rep v l -> exists v', inplace_call f v = Some v' /\ bv_rep v' l') as (l & l' & Ei & -> & Hl & Hf).
    { destruct f as [o| | |b|]; (destruct (val A i) as [l|] eqn:Ei; [|done]); apply val_Some in Ei.
      - destruct (decide _) as [Hok|]; [|done]. apply changed_Some in Hm as [_ ->]. do 2 eexists. split; [done|]. split; [done|]. split; [by intros ->|]. intros v Hv. by apply op_spec.
      - apply changed_Some in Hm as [_ ->]. do 2 eexists. split; [done|]. split; [done|]. split; [by intros ->|]. intros v Hv. by apply set_all_spec.
      - apply changed_Some in Hm as [_ ->]. do 2 eexists. split; [done|]. split; [done|]. split; [by intros ->|]. intros v Hv. by apply reset_all_spec.
      - apply changed_Some in Hm as [_ ->]. do 2 eexists. split; [done|]. split; [done|]. split; [by intros ->|]. intros v Hv. by apply set_all_to_spec.
      - apply changed_Some in Hm as [_ ->]. do 2 eexists. split; [done|]. split; [done|]. split; [by intros ->|]. intros v Hv. by apply not_spec. }
    destruct (get_of _ _ _ _ H Ei) as (o & v & Hi & -> & Hv & Hr). rewrite bind_S, Hv, bind_S. destruct (Hf v Hr) as (v' & -> & Hv'). rewrite bind_S. by eapply finish_store.
  - destruct (val A i) as [l|] eqn:Ei; [|done]. destruct (val A j) as [k|] eqn:Ej; [|done]. apply val_Some in Ei, Ej. destruct (decide _) as [Hok|]; [|done]. apply changed_Some in Hm as [_ ->].
    destruct (get_of _ _ _ _ H Ei) as (o & v & Hi & -> & Hv & Hr). rewrite bind_S, Hv, bind_S. destruct (get_of _ _ _ _ H Ej) as (o' & w & Hj & -> & Hw & Hrw). rewrite bind_S, Hw, bind_S.
    destruct (binary_spec f _ _ _ _ Hr Hrw Hok) as (v' & -> & Hv'). rewrite bind_S. eapply finish_store; try done. apply zip_nil.
  - destruct (val A i) as [l|] eqn:Ei; [|done]. destruct (val A j) as [k|] eqn:Ej; [|done]. apply val_Some in Ei, Ej. destruct (decide _) as [Hok|]; [|done]. apply born_Some in Hm as [Hd ->].
    rewrite (proj2 (free_of _ _ _ H Hd)), bind_S. destruct (get_of _ _ _ _ H Ei) as (o & v & Hi & -> & Hv & Hr). rewrite bind_S. destruct (get_of _ _ _ _ H Ej) as (o' & w & Hj & -> & Hw & Hrw). rewrite bind_S, Hw, bind_S.
    destruct (copy_object_spec o v l (heap s) Hv Hr) as (c & -> & H1 & H2). rewrite bind_S. destruct c as [[x h]|]; [|eexists; split; [done|]; split; [done|]; auto].
    destruct (H2 _ _ eq_refl) as [(u & Hu & Hru) Hn]. rewrite Hu, bind_S. destruct (binary_spec f _ _ _ _ Hru Hrw Hok) as (v' & -> & Hv'). rewrite bind_S.
    assert (exists o2 h2, store x v' h = Some (o2, h2) /\ new_in (heap s) o2 h2 (zip_with (bits_of f) l k)) as (o2 & h2 & -> & Hn2).
    { unfold store. destruct x as [[p|] m]; cbn in *.
      - destruct Hn as [[? _]|(q & d & [= <-] & Hq & ->)]; [done|]. rewrite lookup_insert, bind_S. do 2 eexists. split; [done|]. split; [apply view_rep_some; [done|by rewrite lookup_insert]|]. right. exists p, (bv_data v'). split; [done|]. split; [done|]. by rewrite insert_insert.
      - unfold view in Hu. cbn in Hu. injection Hu as <-. assert (l = []) as -> by (by apply (rep_null _ _ Hru)). cbn in *. assert (bv_data v' = []) as Hd' by (apply length_zero_iff_nil; by rewrite (rep_len _ _ Hv')).
        rewrite bool_decide_true by done. cbn. do 2 eexists. split; [done|]. split; [exact (view_rep_null _ _ _ Hv' eq_refl)|]. left. split; [done|]. destruct Hn as [[_ ->]|(q & d & ? & _)]; done. }
    rewrite bind_S. apply finish_birth; [done|done|done|]. by intros ? ? [= <- <-].
  - destruct (val A i) as [l|] eqn:Ei; [|done]. destruct (val A j) as [k|] eqn:Ej; [|done]. apply val_Some in Ei, Ej. destruct (decide _) as [Hok|]; [|done].
    destruct (born A r _) as [A1|] eqn:Eb; [|done]. apply born_Some in Eb as [Hd ->]. apply changed_Some in Hm as [_ ->].
    destruct (free_of _ _ _ H Hd) as [Hx ->]. rewrite bind_S. destruct (get_of _ _ _ _ H Ei) as (o & v & Hi & -> & Hv & Hr). rewrite bind_S, Hv, bind_S. destruct (get_of _ _ _ _ H Ej) as (o' & w & Hj & -> & Hw & Hrw). rewrite bind_S, Hw, bind_S.
    destruct (binary_spec f _ _ _ _ Hr Hrw Hok) as (v' & -> & Hv'). rewrite bind_S.
    destruct (store_spec s A i o v l v' _ H Hi Hv Hr Hv') as (o2 & h2 & s2 & -> & Hp & Hs2); [apply zip_nil|]. rewrite bind_S. cbn.
    assert (r <> i) as Hne by congruence. pose proof (lookup_lt_Some _ _ _ Hi) as Hil. pose proof (lookup_lt_Some _ _ _ Hx) as Hrl. pose proof (lookup_lt_Some _ _ _ Ei) as HiA.
    rewrite put_lt by done. rewrite bind_S. rewrite put_lt by (cbn; by rewrite insert_length). rewrite bind_S. cbn. eexists. split; [done|]. rewrite put_lt in Hp by done. injection Hp as <-.
    pose proof (transfer _ _ r i o2 (zip_with (bits_of f) l k) None None Hs2 Hne) as Ht. cbn in Ht. rewrite !list_lookup_insert, !list_lookup_insert_ne in Ht by done.
    rewrite !(list_insert_commute _ r i), !list_insert_insert in Ht by done. apply Ht; done.
Qed.
End exec.
Lemma executes_spec alloc garbage s os ts s' A A' : allocator alloc -> words_of_memory garbage -> holds s A -> executes alloc garbage s os ts s' -> mean os ts A = Some A' -> holds s' A'.
Proof.
  intros Ha Hg H He. revert A H. induction He as [s|s o os s1 ts s2 E _ IH|s o os s1 ts s2 E _ IH]; intros A H Hm; cbn in Hm; [by simplify_eq| |];
    (destruct (means o A) as [A1|] eqn:Eo; [|done]); destruct (exec_spec _ _ Ha Hg _ _ _ _ H Eo) as (r & Er & Hr); rewrite E in Er; injection Er as <-; cbn in Hr.
  - by eapply IH.
  - destruct Hr as [-> _]. by eapply IH.
Qed.
Lemma holds_start n : holds (mkBmem ∅ (replicate n None)) (replicate n None).
Proof.
  constructor; cbn.
  - by rewrite !replicate_length.
  - intros i. rewrite !lookup_replicate. split; intros [_ ?]; done.
  - intros i o l H. apply lookup_replicate in H as [? _]. done.
  - intros i j p [m H]. cbn in H. apply lookup_replicate in H as [? _]. done.
  - intros p [? H]. by rewrite lookup_empty in H.
Qed.
