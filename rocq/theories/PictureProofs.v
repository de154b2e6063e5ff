(** Proofs about PictureModel. *)
From Coq Require Import ZArith Reals Lra.
From Flocq Require Import Core Relative Plus_error IEEE754.Binary IEEE754.Bits.
From Verif Require Import Base ProtobufModel VectorIoModel VectorIoProofs Properties_VectorIo GraphSpec PathSpec ChFileModel DistanceToolModel DistanceToolSpec DistanceToolProofs TextModel TextSpec TextProofs OrderToolSpec FloatModel FloatProofs PictureModel PictureFloat PictureSpec.
Ltac Zify.zify_post_hook ::= idtac.
#[local] Instance prec_24 : Prec_gt_0 24 := eq_refl.

(** ** Arcs *)
Lemma all_arcs_inv {S} (P : nat -> S -> Prop) fo tail head body s : csr (length fo - 1) fo head -> tails_ok fo tail head -> P 0 s ->
  (forall e x s, tail !! e = Some x -> e < length head -> P e s -> exists s', body x e s = Some s' /\ P (Datatypes.S e) s') ->
  exists s', all_arcs fo body s = Some s' /\ P (length head) s'.
Proof.
  intros Hc [_ Ht] H0 Hstep. unfold all_arcs. pose proof (csr_len _ _ _ Hc) as Hl. destruct (Nat.eqb_spec (length fo) 0) as [E|_]; [lia|]. cbn [negb chk]. rewrite bind_S.
  destruct (for_range_inv (fun x s => exists a, fo !! x = Some a /\ P a s) (fun x s => a ← fo !! x; b ← fo !! (x + 1); for_range a b (body x) s) 0 (length fo - 1) s) as (s' & E & a & Ea & Hs).
  - lia.
  - exists 0. split; [apply Hc|done].
  - intros x s1 Hx (a & Ea & Hp). rewrite Ea, bind_S. destruct (lookup_lt_is_Some_2 fo (x + 1)) as [b Eb]; [lia|]. rewrite Eb, bind_S.
    assert (fo !! Datatypes.S x = Some b) as Eb' by (by rewrite <- Nat.add_1_r). pose proof (csr_mono _ _ _ Hc _ _ _ Ea Eb') as Hab.
    destruct (for_range_inv P (body x) a b s1) as (s' & E & Hs'); [done|done| |].
    + intros e s2 He Hp2. apply (Hstep e x s2); [|..].
      * apply Ht. exists a, b. done.
      * pose proof (csr_mono_le _ _ _ (Datatypes.S x) (length fo - 1) b (length head) Hc ltac:(lia) Eb' (csr_last _ _ _ Hc)). lia.
      * done.
    + exists s'. split; [done|]. by exists b.
  - exists s'. split; [done|]. rewrite (csr_last _ _ _ Hc) in Ea. by injection Ea as <-.
Qed.
Lemma all_arcs_text fo tail head body (line : nat -> list N -> Prop) out : csr (length fo - 1) fo head -> tails_ok fo tail head ->
  (forall e x out, tail !! e = Some x -> e < length head -> exists l, body x e out = Some (out ++ l) /\ line e l) ->
  exists lines, all_arcs fo body out = Some (out ++ concat lines) /\ length lines = length head /\ forall e l, lines !! e = Some l -> line e l.
Proof.
  intros Hc Ht Hb. destruct (all_arcs_inv (fun e s => exists lines, s = out ++ concat lines /\ length lines = e /\ forall i l, lines !! i = Some l -> line i l) fo tail head body out Hc Ht) as (s' & E & lines & -> & Hl & Hi).
  - exists []. rewrite app_nil_r. done.
  - intros e x s He Hlt (lines & -> & Hl & Hi). destruct (Hb e x (out ++ concat lines) He Hlt) as (l & -> & Hline). eexists. split; [done|]. exists (lines ++ [l]). split; [|split].
    + rewrite concat_app. cbn [concat]. by rewrite app_nil_r, app_assoc.
    + rewrite app_length. cbn [length]. lia.
    + intros i l' Hl'. apply lookup_app_Some in Hl' as [Hl'|[Hge Hl']]; [by apply Hi|]. apply list_lookup_singleton_Some in Hl' as [E <-]. by replace i with e by lia.
  - exists lines. done.
Qed.
Lemma small_numeral k : fits32 k -> numeral (print_unsigned (N.of_nat k)) (N.of_nat k).
Proof. intros H. apply print_unsigned_spec. unfold fits32 in H. change (2 ^ 32)%N with 4294967296%N in H. change (2 ^ 64)%N with 18446744073709551616%N. lia. Qed.

(** ** Smallest and largest elements *)
Lemma best_spec {A} (better : A -> A -> bool) (v : list A) : v <> [] ->
  (forall x y z, x ∈ v -> y ∈ v -> z ∈ v -> better x y = true -> better y z = true -> better x z = true) -> (forall x, x ∈ v -> better x x = false) ->
  exists m, best_of better v = Some m /\ m ∈ v /\ forall x, x ∈ v -> better x m = false.
Proof.
  intros Hv Htr Hirr. unfold best_of, first_best. assert (0 < length v) as Hl by (destruct v; [done|cbn; lia]).
  destruct (for_range_inv (fun i pos => pos < length v /\ forall j x m, j < i -> v !! j = Some x -> v !! pos = Some m -> better x m = false)
    (fun i pos => a ← v !! i; b ← v !! pos; Some (if better a b then i else pos)) 1 (length v) 0) as (pos & E & Hp & Hb).
  - lia.
  - split; [done|]. intros j x m Hj Hx Hm. replace j with 0 in Hx by lia. simplify_eq. apply Hirr. by eapply elem_of_list_lookup_2.
  - intros i pos Hi [Hp Hb]. destruct (lookup_lt_is_Some_2 v i) as [a Ha]; [lia|]. destruct (lookup_lt_is_Some_2 v pos Hp) as [b Eb]. rewrite Ha, bind_S, Eb, bind_S. eexists. split; [done|].
    pose proof (elem_of_list_lookup_2 _ _ _ Ha). pose proof (elem_of_list_lookup_2 _ _ _ Eb).
    destruct (better a b) eqn:Eab.
    + split; [lia|]. intros j x m Hj Hx Hm. rewrite Ha in Hm. injection Hm as <-. pose proof (elem_of_list_lookup_2 _ _ _ Hx). destruct (decide (j = i)) as [-> |Hne]; [simplify_eq; by apply Hirr|].
      destruct (better x a) eqn:Ex; [|done]. rewrite <- (Hb j x b); [|lia|done|done]. symmetry. by apply (Htr x a b).
    + split; [done|]. intros j x m Hj Hx Hm. destruct (decide (j = i)) as [-> |Hne]; [by simplify_eq|]. apply (Hb j); [lia|done|done].
  - rewrite E, bind_S. destruct (lookup_lt_is_Some_2 v pos Hp) as [m Hm]. exists m. split; [done|]. split; [by eapply elem_of_list_lookup_2|].
    intros x Hx. apply elem_of_list_lookup in Hx as (j & Hj). apply (Hb j); [by eapply lookup_lt_Some|done|done].
Qed.
Lemma bpow63 : bpow radix2 63 = IZR (2 ^ 63).
Proof. by rewrite <- (IZR_Zpower radix2). Qed.
Lemma scale_spec v : spread v -> exists v', scale_coordinates v = Some v' /\ fitted v v'.
Proof.
  intros [Hn (p & q & Hp & Hq & Hne)]. rewrite Forall_forall in Hn. assert (v <> []) as Hv by (intros ->; by apply elem_of_nil in Hp).
  destruct (best_spec float_less v Hv) as (a & Ea & Ia & Ha).
  { intros x y z Hx Hy Hz. apply (OrderToolSpec.wo_trans _ _ float_weak_order); by apply Hn. }
  { intros x Hx. apply (OrderToolSpec.wo_irrefl _ _ float_weak_order). by apply Hn. }
  destruct (best_spec (fun x y => float_less y x) v Hv) as (b & Eb & Ib & Hb).
  { intros x y z Hx Hy Hz H1 H2. apply (OrderToolSpec.wo_trans _ _ float_weak_order z y x); try done; by apply Hn. }
  { intros x Hx. apply (OrderToolSpec.wo_irrefl _ _ float_weak_order). by apply Hn. }
  assert (forall x, x ∈ v -> (val32 a <= val32 x <= val32 b)%R) as Hx.
  { intros x Hx. specialize (Ha x Hx). specialize (Hb x Hx). cbv beta in Hb.
    split; apply Rnot_lt_le; intros H; [apply float_less_spec in H; [congruence|by apply Hn|by apply Hn]|apply float_less_spec in H; [congruence|by apply Hn|by apply Hn]]. }
  assert (val32 a < val32 b)%R as Hab. { pose proof (Hx p Hp). pose proof (Hx q Hq). destruct (Rle_lt_or_eq_dec (val32 a) (val32 b)) as [|E]; [lra|done|]. exfalso. apply Hne. lra. }
  assert (best_of (fun a b => float_less a b) v = Some a) as Ea' by exact Ea. unfold scale_coordinates. rewrite Ea', bind_S, Eb, bind_S. eexists. split; [done|].
  destruct (Hn a Ia) as [Fa Ba]. destruct (Hn b Ib) as [Fb Bb]. rewrite <- bpow63 in Ba, Bb.
  split; [by rewrite fmap_length|]. exists (val32 a), (val32 b). split; [|split].
  - split; [by exists a|]. split; [by exists b|]. done.
  - intros i x y Ei Ey. apply list_lookup_fmap_Some in Ey as (x' & Ex' & ->). assert (Some x = Some x') as E by exact (eq_trans (eq_sym Ei) Ex'). injection E as <-. pose proof (elem_of_list_lookup_2 _ _ _ Ei) as Ix. destruct (Hn x Ix) as [Fx Bx]. rewrite <- bpow63 in Bx.
    split; [apply scale_val; [done..|by apply Hx]|]. split; [apply scale_bounds; [done..|by apply Hx]|]. apply scale_error; [done..|by apply Hx].
  - intros i j x y x' y' Ei Ej Ei' Ej' Hle. apply list_lookup_fmap_Some in Ei' as (x1 & Ex1 & ->). apply list_lookup_fmap_Some in Ej' as (y1 & Ey1 & ->).
    assert (Some x = Some x1) as E by exact (eq_trans (eq_sym Ei) Ex1). injection E as <-. assert (Some y = Some y1) as E by exact (eq_trans (eq_sym Ej) Ey1). injection E as <-.
    pose proof (elem_of_list_lookup_2 _ _ _ Ei) as Ix. pose proof (elem_of_list_lookup_2 _ _ _ Ej) as Iy. destruct (Hn _ Ix) as [Fx Bx]. destruct (Hn _ Iy) as [Fy By]. rewrite <- bpow63 in Bx, By.
    apply scale_mono; try done; by apply Hx.
Qed.
(** v:73-74 *)
Lemma reverse_val v : is_finite 24 128 v = true -> (0 <= val32 v <= 300 + / 32768)%R ->
  is_finite 24 128 (float_minus float_300 v) = true /\ (Rabs (val32 (float_minus float_300 v) - (300 - val32 v)) <= / 65536)%R.
Proof.
  intros Fv Bv. destruct val_300 as [F3 V3]. assert (1024 <= bpow radix2 63)%R as Hb by (change 1024%R with (bpow radix2 10); by apply bpow_le).
  destruct (minus_val float_300 v F3 Fv) as [F V]; [rewrite V3, Rabs_right by lra; lra|rewrite Rabs_right by lra; lra|]. split; [done|]. rewrite V, V3.
  assert (Rabs (300 - val32 v) < bpow radix2 9)%R as Hlt. { change (bpow radix2 9) with 512%R. apply Rabs_lt. lra. }
  pose proof (error_le_half_ulp radix2 (FLT_exp (-149) 24) (fun x => negb (Z.even x)) (300 - val32 v)%R) as H. apply (Rle_trans _ _ _ H).
  assert (ulp radix2 (FLT_exp (-149) 24) (300 - val32 v) <= bpow radix2 (9 - 24))%R as Hu.
  { destruct (Req_dec (300 - val32 v) 0) as [-> |Hz].
    - rewrite ulp_FLT_0 by exact eq_refl. by apply bpow_le.
    - rewrite ulp_neq_0 by done. apply bpow_le. unfold cexp, FLT_exp. assert (mag radix2 (300 - val32 v) <= 9)%Z by (by apply mag_le_bpow). lia. }
  assert (bpow radix2 (9 - 24) = / 32768)%R as E by reflexivity. rewrite E in Hu. lra.
Qed.
