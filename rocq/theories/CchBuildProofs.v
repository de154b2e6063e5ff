(** The CCH constructor yields a well-formed CCH. *)
From Verif Require Import Base UtilSpec GraphSpec PathSpec WalkSpec PermutationModel SortModel GraphUtilModel
  PermutationProofs SortProofs GraphUtilProofs CchModel CchSpec CchCustomizeProofs CchTriangleProofs CchBuildModel CchChordalProofs.
Ltac Zify.zify_post_hook ::= idtac.

(** ** Index of sorted arcs *)
Lemma sorted_pairwise (a : list nat) : (forall i j x y, i < j -> a !! i = Some x -> a !! j = Some y -> x <= y) -> StronglySorted le a.
Proof.
  induction a as [|z a IH]; intros H; constructor.
  - apply IH. intros i j x y Hij Hx Hy. by apply (H (S i) (S j)); [lia|..].
  - apply Forall_forall. intros y [j Hj]%elem_of_list_lookup_1. by apply (H 0 (S j)); [lia|..].
Qed.
Lemma lexle_sorted a b : length a = length b -> lexle a b -> StronglySorted le a.
Proof.
  intros Hl H. apply sorted_pairwise. intros i j x y Hij Hx Hy.
  destruct (lookup_lt_is_Some_2 b i) as [h Hh]; [apply lookup_lt_Some in Hx; lia|].
  destruct (lookup_lt_is_Some_2 b j) as [h' Hh']; [apply lookup_lt_Some in Hy; lia|].
  destruct (H _ _ _ _ _ _ Hij Hx Hh Hy Hh'); lia.
Qed.
Lemma lexlt_lexle a b : lexlt a b -> lexle a b.
Proof. intros H i j t h t' h' Hij H1 H2 H3 H4. destruct (H _ _ _ _ _ _ Hij H1 H2 H3 H4); lia. Qed.
Lemma index_spec n (a b : list nat) :
  length a = length b -> StronglySorted le a -> (forall x, x ∈ a -> x < n) -> (forall x, x ∈ b -> x < n) ->
  exists fo, invert_vector a n = Some fo /\ csr n fo b /\ forall x j, out_arc fo x j <-> a !! j = Some x.
Proof.
  intros Hl Hs Ha Hb. destruct (invert_vector_correct a n Hs Ha) as (fo & He & Hlen & H0 & Hn & Hmono & Hr).
  exists fo. split; [done|]. split.
  - split; try done.
    + intros i lo hi Hlo Hhi. apply (Hmono i); [|done..]. apply lookup_lt_Some in Hhi. lia.
    + by rewrite <- Hl.
  - intros x j. split.
    + intros (lo & hi & Hlo & Hhi & Hj). assert (x < n) as Hx by (apply lookup_lt_Some in Hhi; lia).
      assert (hi <= length a) as Hhl.
      { assert (csr n fo b) as Hc. { split; try done. { intros i ? ? ? H'. apply (Hmono i); [|done..]. apply lookup_lt_Some in H'. lia. } by rewrite <- Hl. }
        pose proof (csr_mono_le n fo b (S x) n hi _ Hc ltac:(lia) Hhi Hn). lia. }
      destruct (lookup_lt_is_Some_2 a j) as [y Hy]; [lia|]. pose proof (Hr x lo hi j y Hx Hlo Hhi Hy) as Hiff. rewrite Hy. f_equal. by apply Hiff.
    + intros Hj. assert (x < n) as Hx by (eapply Ha, elem_of_list_lookup_2; eauto).
      destruct (lookup_lt_is_Some_2 fo x) as [lo Hlo]; [lia|]. destruct (lookup_lt_is_Some_2 fo (S x)) as [hi Hhi]; [lia|].
      exists lo, hi. split; [done|]. split; [done|]. by apply (Hr x lo hi j x Hx Hlo Hhi Hj).
Qed.

(** ** The upward graph *)
Record uparcs (n : nat) (ut uh : list nat) : Prop := {
  ua_len : length ut = length uh;
  ua_lex : lexlt ut uh;
  ua_range : forall t h, has_arc ut uh t h -> t < h < n }.

Lemma uparcs_elem n ut uh : uparcs n ut uh -> (forall x, x ∈ ut -> x < n) /\ (forall x, x ∈ uh -> x < n).
Proof.
  intros [Hl _ Hr]. split; intros x [i Hi]%elem_of_list_lookup_1.
  - destruct (lookup_lt_is_Some_2 uh i) as [h Hh]; [apply lookup_lt_Some in Hi; lia|]. destruct (Hr x h); [by exists i|]. lia.
  - destruct (lookup_lt_is_Some_2 ut i) as [h Hh]; [apply lookup_lt_Some in Hi; lia|]. destruct (Hr h x); [by exists i|]. lia.
Qed.
Lemma uparcs_index n ut uh : uparcs n ut uh ->
  exists fo, invert_vector ut n = Some fo /\ csr n fo uh /\ forall x j, out_arc fo x j <-> ut !! j = Some x.
Proof.
  intros H. destruct (uparcs_elem _ _ _ H). apply index_spec; [by eapply ua_len| |done..].
  eapply lexle_sorted; [by eapply ua_len|]. by eapply lexlt_lexle, ua_lex.
Qed.
Lemma chordal_iff n (E E' U U' : nat -> nat -> Prop) :
  (forall x y, E x y <-> E' x y) -> (forall x y, U x y <-> U' x y) -> chordal n E U -> chordal n E' U'.
Proof.
  intros HE HU [H1 H2 H3 H4]. split.
  - intros x y ?%HU. auto.
  - intros x y ? ?%HE. apply HU. auto.
  - intros x y z ?%HU ?%HU ?. apply HU. eauto.
  - intros x y ?%HU. destruct (H4 x y) as [k Hk]; [done|]. exists k. eapply gw_sub; [|exact Hk]. intros ? ? ? [? ?%HE]. done.
Qed.

(** adjacent in the symmetrised loop-free graph *)
Definition sym_adj (rt rh : list nat) (t h : nat) : Prop := t <> h /\ (has_arc rt rh t h \/ has_arc rt rh h t).

Lemma build_up_spec asserts n rt rh :
  length rt = length rh -> (forall x, x ∈ rt -> x < n) -> (forall x, x ∈ rh -> x < n) ->
  exists fo ut uh, build_up asserts n rt rh = Some (fo, ut, uh) /\ uparcs n ut uh /\
    csr n fo uh /\ (forall x j, out_arc fo x j <-> ut !! j = Some x) /\ chordal n (sym_adj rt rh) (has_arc ut uh).
Proof.
  intros Hl Ht Hh. unfold build_up.
  destruct (symmetric_graph_spec asserts n rt rh Hl Ht Hh) as (st & sh & He & Hls & Hsym). rewrite He. bs. cbv iota.
  assert (forall t h, has_arc rt rh t h -> t < n /\ h < n) as Hb.
  { intros t h (i & Hi & Hi'). split; [eapply Ht|eapply Hh]; by eapply elem_of_list_lookup_2. }
  destruct (chordal_spec n st sh Hls) as (ut & uh & Hc & Hlu & Hd & HC).
  { intros t h [Hne Ha]%Hsym. split; [destruct Ha as [Ha|Ha]; apply Hb in Ha; lia|]. apply Hsym. split; [done|]. by destruct Ha; [right|left]. }
  rewrite Hc. bs. cbv iota.
  assert (forall i x, ut !! i = Some x \/ uh !! i = Some x -> x < n) as Hux.
  { intros i x Hx. assert (i < length ut) as Hi by (destruct Hx as [Hx|Hx]; apply lookup_lt_Some in Hx; lia).
    destruct (lookup_lt_is_Some_2 ut i) as [t Hti]; [lia|]. destruct (lookup_lt_is_Some_2 uh i) as [h Hhi]; [lia|].
    assert (t < h < n) by (eapply ch_range; [done|by exists i]). naive_solver lia. }
  destruct (sort_inverse asserts n ut uh) as (p & r & a2 & Hs & Hr & Hrl & Hpa & Hv & Hlex).
  { done. } { intros x [i Hi]%elem_of_list_lookup_1. eauto. } { intros x [i Hi]%elem_of_list_lookup_1. eauto. }
  rewrite Hs. bs. cbv iota. destruct (Hv uh) as (b2 & Hb2 & Hpb); [done|]. rewrite Hb2. bs.
  assert (forall t h, has_arc ut uh t h <-> has_arc a2 b2 t h) as Hiff.
  { intros t h. by rewrite (perm_has_arc r ut uh a2 b2). }
  assert (uparcs n a2 b2) as HU.
  { split.
    - by rewrite (proj1 Hpa), (proj1 Hpb).
    - apply lexle_lexlt; [by eapply perm_distinct|by apply Hlex].
    - intros t h ?%Hiff. by eapply ch_range. }
  destruct (uparcs_index _ _ _ HU) as (fo & Hf & Hcsr & Hout). rewrite Hf. bs.
  exists fo, a2, b2. split; [done|]. split; [done|]. split; [done|]. split; [done|].
  by eapply chordal_iff; [..|exact HC].
Qed.

(** ** The mapping from input arcs to CCH arcs *)
Lemma scan_to_spec ut uh t h a fuel p :
  lexlt ut uh -> length ut = length uh -> ut !! a = Some t -> uh !! a = Some h -> p <= a -> a - p <= fuel -> scan_to ut uh t h fuel p = Some a.
Proof.
  intros Hlex Hl Ht Hh. revert p. induction fuel as [|fuel IH]; intros p Hp Hf.
  - assert (p = a) as -> by lia. cbn. rewrite Ht, Hh. bs. by rewrite decide_True.
  - cbn. assert (a < length ut) by (by eapply lookup_lt_Some).
    destruct (lookup_lt_is_Some_2 ut p) as [t' Ht']; [lia|]. destruct (lookup_lt_is_Some_2 uh p) as [h' Hh']; [lia|].
    rewrite Ht', Hh'. bs. case_decide as E.
    + f_equal. destruct E as [<- <-]. by eapply lexlt_distinct.
    + destruct (decide (p = a)) as [->|]; [exfalso; apply E; naive_solver|]. apply IH; lia.
Qed.

Lemma map_pass_spec first it ih ids ut uh mp up m :
  length it = m -> length ih = m -> length ids = m -> length mp = m -> length up = m -> perm ids ->
  lexle it ih -> lexlt ut uh -> length ut = length uh -> (forall t h, has_arc it ih t h -> t < h -> has_arc ut uh t h) ->
  exists mp' up', map_pass first it ih ids ut uh (mp, up) = Some (mp', up') /\ length mp' = m /\ length up' = m /\
    forall j t h e, it !! j = Some t -> ih !! j = Some h -> ids !! j = Some e ->
      (t < h -> (exists a, mp' !! e = Some (Some a) /\ ut !! a = Some t /\ uh !! a = Some h) /\ (up' !! e = if (first : bool) then Some true else up !! e)) /\
      (~ t < h -> up' !! e = up !! e /\ mp' !! e = if first && bool_decide (t = h) then Some None else mp !! e).
Proof.
  intros Hlt Hlh Hli Hlm Hlu Hids Hle Hlex Hlen Hin. unfold map_pass. cbn [fst snd].
  set (body := fun i '(p, mp, up) => _ : option (nat * list (option nat) * list bool)).
  destruct (for_range_inv (fun i '(p, mp', up') => length mp' = m /\ length up' = m /\
      (forall j a t h, i <= j -> it !! j = Some t -> ih !! j = Some h -> t < h -> ut !! a = Some t -> uh !! a = Some h -> p <= a) /\
      (forall j t h e, it !! j = Some t -> ih !! j = Some h -> ids !! j = Some e ->
        if decide (j < i) then
          (t < h -> (exists a, mp' !! e = Some (Some a) /\ ut !! a = Some t /\ uh !! a = Some h) /\ (up' !! e = if first then Some true else up !! e)) /\
          (~ t < h -> up' !! e = up !! e /\ mp' !! e = if first && bool_decide (t = h) then Some None else mp !! e)
        else mp' !! e = mp !! e /\ up' !! e = up !! e)) body 0 (length it) (0, mp, up)) as ([[p mp'] up'] & He & H1 & H2 & _ & H4).
  - lia.
  - split; [done|]. split; [done|]. split; [intros; lia|]. intros. by rewrite decide_False by lia.
  - intros i [[p mp'] up'] Hi (H1 & H2 & H3 & H4). unfold body.
    destruct (lookup_lt_is_Some_2 it i) as [t Ht]; [lia|]. destruct (lookup_lt_is_Some_2 ih i) as [h Hh]; [lia|].
    destruct (lookup_lt_is_Some_2 ids i) as [e He]; [lia|]. assert (e < m) as Hem by (pose proof (perm_lookup_lt _ _ _ Hids He); lia).
    rewrite Ht, Hh. bs.
    assert (forall j t' h' e', it !! j = Some t' -> ih !! j = Some h' -> ids !! j = Some e' -> j <> i -> e' <> e) as Hne.
    { intros j t' h' e' _ _ He' Hj ->. apply Hj. by eapply perm_inj. }
    pose proof (H4 i t h e Ht Hh He) as Hold. rewrite decide_False in Hold by lia. destruct Hold as [Hom Hou].
    case_decide as Hth.
    + destruct (Hin t h) as (a & Ha & Ha'); [by exists i|done|].
      rewrite (scan_to_spec ut uh t h a) by first [done|by apply (H3 i a t h)|apply lookup_lt_Some in Ha; lia].
      bs. rewrite He. bs. rewrite (wr_Some mp') by lia. bs.
      assert (exists up2, (if first then wr up' e true else Some up') = Some up2 /\ length up2 = m /\ (up2 !! e = if first then Some true else up !! e) /\ forall e', e' <> e -> up2 !! e' = up' !! e') as (up2 & Hup & Hul & Hue & Huo).
      { destruct first.
        - rewrite wr_Some by lia. eexists. split; [done|]. rewrite insert_length. split; [done|]. split; [by rewrite list_lookup_insert by lia|].
          intros e' ?. by rewrite list_lookup_insert_ne.
        - by exists up'. }
      rewrite Hup. bs. eexists (a, _, up2). split; [done|]. cbn beta iota. rewrite insert_length. split; [done|]. split; [done|]. split.
      * intros j a' t' h' Hj Ht' Hh' Hlt' Ha1 Ha2. destruct (le_lt_dec a a') as [|Hlt2]; [done|]. exfalso.
        destruct (Hlex _ _ _ _ _ _ Hlt2 Ha1 Ha2 Ha Ha') as [?|[? ?]]; destruct (Hle i j t h t' h') as [?|[? ?]]; try done; lia.
      * intros j t' h' e' Ht' Hh' He'. destruct (decide (j = i)) as [->|Hji].
        -- simplify_eq. rewrite decide_True by lia. split; [|done]. intros _. rewrite list_lookup_insert by lia. split; [by exists a|done].
        -- specialize (Hne _ _ _ _ Ht' Hh' He' Hji). specialize (H4 _ _ _ _ Ht' Hh' He').
           rewrite list_lookup_insert_ne by done. rewrite (Huo e') by done.
           destruct (decide (j < i)); [rewrite decide_True by lia|rewrite decide_False by lia]; done.
    + assert (exists mp2, (if first && bool_decide (t = h) then id ← ids !! i; mp ← wr mp' id None; Some (p, mp, up') else Some (p, mp', up')) = Some (p, mp2, up') /\
         length mp2 = m /\ (mp2 !! e = if first && bool_decide (t = h) then Some None else mp !! e) /\ forall e', e' <> e -> mp2 !! e' = mp' !! e') as (mp2 & Hm2 & Hml & Hme & Hmo).
      { destruct (first && bool_decide (t = h)).
        - rewrite He. bs. rewrite wr_Some by lia. bs. eexists. split; [done|]. rewrite insert_length. split; [done|]. split; [by rewrite list_lookup_insert by lia|].
          intros e' ?. by rewrite list_lookup_insert_ne.
        - by exists mp'. }
      rewrite Hm2. eexists (p, mp2, up'). split; [done|]. cbn beta iota. split; [done|]. split; [done|]. split.
      * intros j a t' h' Hj. destruct (decide (j = i)) as [->|]; [intros; simplify_eq; lia|]. apply H3. lia.
      * intros j t' h' e' Ht' Hh' He'. destruct (decide (j = i)) as [->|Hji].
        -- simplify_eq. rewrite decide_True by lia. split; [done|]. intros _. by split.
        -- specialize (Hne _ _ _ _ Ht' Hh' He' Hji). specialize (H4 _ _ _ _ Ht' Hh' He'). rewrite (Hmo e') by done.
           destruct (decide (j < i)); [rewrite decide_True by lia|rewrite decide_False by lia]; done.
  - rewrite He. bs. cbv iota. exists mp', up'. split; [done|]. split; [done|]. split; [done|].
    intros j t h e Ht Hh He'. specialize (H4 _ _ _ _ Ht Hh He'). rewrite decide_True in H4; [done|]. by eapply lookup_lt_Some.
Qed.

(** [mp] and [up] tell for each input arc its CCH arc and its direction. *)
Record mapped (rt rh ut uh : list nat) (mp : list (option nat)) (up : list bool) : Prop := {
  ma_mp : length mp = length rt;
  ma_up : length up = length rt;
  ma_arc : forall e u v, rt !! e = Some u -> rh !! e = Some v -> u <> v ->
    exists a, mp !! e = Some (Some a) /\ ut !! a = Some (u `min` v) /\ uh !! a = Some (u `max` v);
  ma_loop : forall e u, rt !! e = Some u -> rh !! e = Some u -> mp !! e = Some None;
  ma_dir : forall e u v, rt !! e = Some u -> rh !! e = Some v -> up !! e = Some (bool_decide (u < v)) }.

Lemma map_input_spec asserts n rt rh ids it ih ut uh :
  length rt = length rh -> (forall x, x ∈ rt -> x < n) -> (forall x, x ∈ rh -> x < n) ->
  perm ids -> length ids = length rt -> permuted_by ids rt it -> permuted_by ids rh ih -> lexle it ih ->
  uparcs n ut uh -> (forall t h, has_arc rt rh t h -> t <> h -> has_arc ut uh (t `min` h) (t `max` h)) ->
  exists mp up, map_input asserts n it ih ids ut uh = Some (mp, up) /\ mapped rt rh ut uh mp up.
Proof.
  intros Hl Ht Hh Hids Hil Hit Hih Hle [Hul Hulex _] Hin. unfold map_input.
  assert (length it = length rt) as Hlt by (rewrite (proj1 Hit); done).
  assert (length ih = length rt) as Hlh by (rewrite (proj1 Hih); done).
  destruct uh as [|h0 uh'] eqn:Euh.
  { eexists _, _. split; [done|]. rewrite Hlt.
    assert (forall e u v, rt !! e = Some u -> rh !! e = Some v -> u = v) as Hloop.
    { intros e u v Hu Hv. destruct (decide (u = v)) as [|Hne]; [done|]. destruct (Hin u v) as (i & _ & Hi); [by exists e|done|].
      by rewrite lookup_nil in Hi. }
    split; rewrite ?replicate_length; try done.
    - intros e u v Hu Hv Hne. by specialize (Hloop _ _ _ Hu Hv).
    - intros e u Hu _. rewrite lookup_replicate_2; [done|]. by eapply lookup_lt_Some.
    - intros e u v Hu Hv. specialize (Hloop _ _ _ Hu Hv). subst v. rewrite bool_decide_false by lia.
      rewrite lookup_replicate_2; [done|]. by eapply lookup_lt_Some. }
  rewrite <- Euh in *. clear Euh.
  rewrite Hlt. set (m := length rt) in *.
  destruct (map_pass_spec true it ih ids ut uh (replicate m (Some 0)) (replicate m false) m) as (mp1 & up1 & He1 & Hm1 & Hu1 & H1);
    rewrite ?replicate_length; try done.
  { intros t h Ha Hlt'. specialize (Hin t h). rewrite Nat.min_l, Nat.max_r in Hin by lia. apply Hin; [|lia].
    by rewrite <- (perm_has_arc ids rt rh it ih). }
  rewrite He1. bs. cbv iota.
  assert (forall x, x ∈ it -> x < n) as Htn by (intros x ?; by eapply Ht, permuted_elem).
  assert (forall x, x ∈ ih -> x < n) as Hhn by (intros x ?; by eapply Hh, permuted_elem).
  destruct (sort_inverse asserts n ih it) as (p & r & it2 & Hs & Hr & Hrl & Hp2 & Hv & Hlex2); [lia|done|done|].
  rewrite Hs. bs. cbv iota. destruct (Hv it) as (ih2 & Hih2 & Hpi2); [lia|]. rewrite Hih2. bs.
  destruct (Hv ids) as (ids2 & Hids2 & Hpids); [lia|]. rewrite Hids2. bs.
  assert (perm ids2) as Hperm2.
  { assert (ids2 ≡ₚ ids) as Hpp. { eapply permuted_by_Permutation; [done| |done]. lia. }
    unfold perm. by rewrite Hpp. }
  destruct (map_pass_spec false it2 ih2 ids2 ut uh mp1 up1 m) as (mp2 & up2 & He2 & Hm2 & Hu2 & H2); try done.
  { rewrite (proj1 Hp2). lia. } { rewrite (proj1 Hpi2). lia. } { rewrite (proj1 Hpids). lia. }
  { by apply Hlex2. }
  { intros t h Ha Hlt'. specialize (Hin h t). rewrite Nat.min_r, Nat.max_l in Hin by lia. apply Hin; [|lia].
    apply (perm_has_arc r ih it it2 ih2) in Ha; [|done..]. rewrite <- (perm_has_arc ids rt rh it ih) by done.
    destruct Ha as (i & ? & ?). by exists i. }
  exists mp2, up2. split; [done|].
  (* the entry of input arc [e] *)
  assert (forall e u v, rt !! e = Some u -> rh !! e = Some v ->
     (u <> v -> exists a, mp2 !! e = Some (Some a) /\ ut !! a = Some (u `min` v) /\ uh !! a = Some (u `max` v)) /\
     (u = v -> mp2 !! e = Some None) /\ up2 !! e = Some (bool_decide (u < v))) as Hall.
  { intros e u v Hu Hv'. assert (e < m) as Hem by (by eapply lookup_lt_Some).
    destruct (perm_surj ids e Hids) as [j Hj]; [lia|].
    assert (it !! j = Some u) as Hjt by (by rewrite (proj2 Hit _ _ Hj)).
    assert (ih !! j = Some v) as Hjh by (by rewrite (proj2 Hih _ _ Hj)).
    destruct (perm_surj r j Hr) as [i Hi]. { apply lookup_lt_Some in Hjt. lia. }
    assert (it2 !! i = Some v) as Hit2 by (by rewrite (proj2 Hp2 _ _ Hi)).
    assert (ih2 !! i = Some u) as Hih2' by (by rewrite (proj2 Hpi2 _ _ Hi)).
    assert (ids2 !! i = Some e) as Hid2 by (by rewrite (proj2 Hpids _ _ Hi)).
    destruct (H1 j u v e Hjt Hjh Hj) as [A1 A2]. destruct (H2 i v u e Hit2 Hih2' Hid2) as [B1 B2].
    cbn [andb] in *. destruct (lt_eq_lt_dec u v) as [[Huv| ->]|Hvu].
    - destruct (A1 Huv) as [(a & Ha & Ha1 & Ha2) Hup]. destruct (B2 ltac:(lia)) as [Hup2 Hmp2].
      rewrite Nat.min_l, Nat.max_r by lia. rewrite bool_decide_true by done. split; [|split; [lia|congruence]].
      intros _. exists a. split; [congruence|done].
    - destruct (A2 ltac:(lia)) as [Hup Hmp]. destruct (B2 ltac:(lia)) as [Hup2 Hmp2]. rewrite bool_decide_true in Hmp by done.
      split; [done|]. split; [congruence|]. rewrite bool_decide_false by lia. rewrite Hup2, Hup. by apply lookup_replicate_2.
    - destruct (B1 Hvu) as [(a & Ha & Ha1 & Ha2) Hup]. destruct (A2 ltac:(lia)) as [Hup2 _].
      rewrite Nat.min_r, Nat.max_l by lia. rewrite bool_decide_false by lia. split; [by intros _; exists a|]. split; [lia|].
      rewrite Hup, Hup2. by apply lookup_replicate_2. }
  split; [done|done|..].
  - intros e u v Hu Hv' Hne. by apply (Hall e u v).
  - intros e u Hu Hv'. by apply (Hall e u u).
  - intros e u v Hu Hv'. by apply (Hall e u v).
Qed.

(** ** The elimination tree *)
Lemma elimination_tree_spec n fo ut uh :
  uparcs n ut uh -> csr n fo uh -> (forall x j, out_arc fo x j <-> ut !! j = Some x) ->
  exists parent, elimination_tree n fo uh = Some parent /\ length parent = n /\
    forall x y, parent !! x = Some (Some y) <-> has_arc ut uh x y /\ forall z, has_arc ut uh x z -> y <= z.
Proof.
  intros [Hl Hlex Hr] Hc Ho. unfold elimination_tree.
  destruct (mapM_seq (fun x => lo ← fo !! x; hi ← fo !! S x; if decide (lo <> hi) then h ← uh !! lo; Some (Some h) else Some None) n) as (parent & He & Hlen & Hp).
  { intros x Hx. destruct (csr_range _ _ _ _ Hc Hx) as (lo & hi & Hlo & Hhi & ? & ?). rewrite Hlo, Hhi. bs.
    case_decide; [|by eexists]. destruct (lookup_lt_is_Some_2 uh lo) as [h Hh]; [lia|]. rewrite Hh. bs. by eexists. }
  exists parent. split; [done|]. split; [done|]. intros x y. rewrite Hp. split.
  - intros [Hx Hf]. destruct (csr_range _ _ _ _ Hc Hx) as (lo & hi & Hlo & Hhi & ? & ?). rewrite Hlo, Hhi in Hf. bs.
    case_decide as Hne; [|done]. destruct (uh !! lo) as [h|] eqn:Hh; [|done]. cbn in Hf. simplify_eq.
    assert (ut !! lo = Some x) as Hlx. { apply Ho. exists lo, hi. split; [done|]. split; [done|]. lia. }
    split; [by exists lo|]. intros z (j & Hj & Hz). pose proof Hj as (lo' & hi' & ? & ? & Hjr)%Ho. simplify_eq.
    destruct (decide (lo = j)) as [->|]; [naive_solver|]. destruct (Hlex lo j _ _ _ _ ltac:(lia) Hlx Hh Hj Hz); lia.
  - intros [Hxy Hmin]. pose proof (Hr _ _ Hxy). assert (x < n) as Hx by lia. split; [done|].
    destruct Hxy as (j & Hj & Hy). pose proof Hj as (lo & hi & Hlo & Hhi & Hjr)%Ho. rewrite Hlo, Hhi. bs.
    rewrite decide_True by lia. assert (j < length uh) by (by eapply lookup_lt_Some).
    destruct (lookup_lt_is_Some_2 uh lo) as [h Hh]; [lia|]. rewrite Hh. bs. do 2 f_equal.
    assert (ut !! lo = Some x) as Hlx. { apply Ho. exists lo, hi. split; [done|]. split; [done|]. lia. }
    assert (y <= h) by (apply Hmin; by exists lo).
    destruct (decide (lo = j)) as [->|]; [naive_solver|]. destruct (Hlex lo j _ _ _ _ ltac:(lia) Hlx Hh Hj Hy); lia.
Qed.
Lemma tree_ancestor n E U parent :
  chordal n E U -> (forall x y, parent !! x = Some (Some y) <-> U x y /\ forall z, U x z -> y <= z) ->
  (forall x y, U x y -> exists p, U x p /\ forall z, U x z -> p <= z) ->
  forall x y, U x y -> ancestor parent x y.
Proof.
  intros HC Hp Hmin. cut (forall k x y, y - x <= k -> U x y -> ancestor parent x y); [intros H x y; by apply (H (y - x))|].
  induction k as [|k IH]; intros x y Hk Hxy; pose proof (ch_range _ _ _ HC _ _ Hxy); [lia|].
  destruct (Hmin _ _ Hxy) as (p & Hxp & Hlow). pose proof (ch_range _ _ _ HC _ _ Hxp).
  apply (anc_step _ _ p); [by apply Hp|]. destruct (decide (p = y)) as [->|]; [constructor|].
  apply IH; [lia|]. specialize (Hlow _ Hxy). eapply ch_fill; [done|exact Hxp|done|lia].
Qed.
Lemma has_arc_min ut uh x y : has_arc ut uh x y -> exists p, has_arc ut uh x p /\ forall z, has_arc ut uh x z -> p <= z.
Proof.
  revert x. induction (lt_wf y) as [y _ IH]. intros x Hxy.
  destruct (decide (Exists (fun i => ut !! i = Some x /\ default 0 (uh !! i) < y) (seq 0 (length uh)))) as [He|Hn].
  - apply Exists_exists in He as (i & Hi%elem_of_seq & Hx & Hlt). assert (i < length uh) as Hi' by lia. clear Hi. rename Hi' into Hi.
    destruct (lookup_lt_is_Some_2 uh i Hi) as [z Hz]. rewrite Hz in Hlt. cbn in Hlt. apply (IH z Hlt). by exists i.
  - exists y. split; [done|]. intros z (i & Hx & Hz). destruct (le_lt_dec y z) as [|Hlt]; [done|]. exfalso. apply Hn.
    apply Exists_exists. exists i. rewrite Hz. split; [|done]. apply elem_of_seq. apply lookup_lt_Some in Hz. lia.
Qed.
