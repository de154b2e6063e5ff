(** Extra weight of the path found by a query. *)
From Verif Require Import Base UtilSpec GraphSpec IdQueueModel IdQueueSpec IdQueueProofs IdSetModel IdSetSpec IdSetProofs ChCleanSpec ChBuildModel ChSpec
  ChQueryModel ChSearchProofs ChRunProofs ChUnpackProofs ChExtraModel ChExtraSpec ChExtraArcProofs WalkSpec.
Ltac Zify.zify_post_hook ::= idtac.

Lemma Forall2_rev {A B} (R : A -> B -> Prop) l k : Forall2 R l k -> Forall2 R (rev l) (rev k).
Proof. induction 1; cbn; [constructor|]. apply Forall2_app; [done|]. by constructor. Qed.

Lemma up_loop_ok {W} (lnk : W -> W -> W) get s fuel : forall fuel' x as_ z vs ret, fuel <= fuel' -> climb s fuel x = Some (as_, z) ->
  Forall2 (fun a v => get a = Some v) as_ vs -> up_loop lnk get s fuel' x ret = Some (foldl (fun r v => lnk v r) ret vs).
Proof.
  induction fuel as [|fuel IH]; intros fuel' x as_ z vs ret Hle; [done|]. destruct fuel' as [|fuel']; [lia|]. cbn [climb up_loop].
  destruct (s_pnode s !! x) as [o|]; [|done]. rewrite !bind_S. destruct o as [y|].
  - destruct (is_set _ _) as [b|]; [|done]. rewrite !bind_S. destruct (chk b) as [[]|]; [|done]. rewrite !bind_S.
    destruct (s_parc s !! x) as [a|]; [|done]. rewrite !bind_S. destruct a as [a|]; [|done]. rewrite !bind_S.
    destruct (climb s fuel y) as [[l z']|] eqn:E; [|done]. rewrite bind_S. intros [= <- <-] Hv. inversion Hv as [|? v ? vs' Hav Hvs]; subst.
    rewrite Hav, bind_S. cbn [foldl]. eapply IH; [lia|done|done].
  - intros [= <- <-] Hv. inversion Hv. done.
Qed.
Lemma up_distance_ok {W} (lnk : W -> W -> W) get s x a as_ z v vs :
  climb s (length (s_pnode s)) x = Some (a :: as_, z) -> get a = Some v -> Forall2 (fun a v => get a = Some v) as_ vs ->
  up_distance lnk get s x = Some (foldl (fun r v => lnk v r) v vs).
Proof.
  unfold up_distance. remember (length (s_pnode s)) as fuel eqn:Hf. intros E Hv Hvs. revert E. destruct fuel as [|fuel]; [done|]. cbn [climb].
  destruct (s_pnode s !! x) as [o|]; [|done]. rewrite !bind_S. destruct o as [y|]; [|done]. rewrite !bind_S.
  destruct (is_set _ _) as [b|]; [|done]. rewrite !bind_S. destruct (chk b) as [[]|]; [|done]. rewrite !bind_S.
  destruct (s_parc s !! x) as [a'|]; [|done]. rewrite !bind_S. destruct a' as [a'|]; [|done]. rewrite !bind_S.
  destruct (climb s fuel y) as [[l z']|] eqn:E'; [|done]. rewrite bind_S. intros [= -> -> ->].
  rewrite Hv, bind_S. eapply up_loop_ok; [|done|done]. lia.
Qed.
Lemma climb_pnode s fuel x as_ z : climb s fuel x = Some (as_, z) -> exists o, s_pnode s !! x = Some o /\ (o = None <-> as_ = []).
Proof.
  destruct fuel as [|fuel]; [done|]. cbn [climb]. destruct (s_pnode s !! x) as [o|]; [|done]. rewrite bind_S. intros E. exists o. split; [done|]. revert E.
  destruct o as [y|]; [|by intros [= <- <-]].
  destruct (is_set _ _) as [b|]; [|done]. rewrite !bind_S. destruct (chk b) as [[]|]; [|done]. rewrite !bind_S.
  destruct (s_parc s !! x) as [a'|]; [|done]. rewrite !bind_S. destruct a' as [a'|]; [|done]. rewrite !bind_S.
  destruct (climb s fuel y) as [[l z']|]; [|done]. rewrite bind_S. by intros [= <- <-].
Qed.

Section paths.
Context {W : Type} (dflt : W) (link : W -> W -> W) (P : W -> Prop).
Hypothesis HP : linkable link P.
Context (n : nat) (tail head : list nat) (w : list N) (c : ch) (l : list W).
Hypothesis H : ch_ok n tail head w c.
Hypothesis Hl : length l = length head.
Hypothesis HlP : Forall P l.

(** The values, the unpacked arcs and their weights for a list of arcs. *)
Definition arcs_vals (d : bool) (as_ : list nat) (vs : list W) (pss : list (list (nat * nat))) (wss : list (list W)) : Prop :=
  Forall2 (fun a p => ch_unpack c n d a = Some p) as_ pss /\ Forall2 (fun p ws => mapM (fun e => l !! e) p.*1 = Some ws) pss wss /\
  Forall2 (vals dflt link P) vs wss.

Lemma unpack_all_concat d as_ pss : Forall2 (fun a p => ch_unpack c n d a = Some p) as_ pss -> unpack_all c d as_ = Some (concat pss).
Proof.
  intros HF. unfold unpack_all. rewrite (nodes_n n tail head w c H). apply mapM_Some_2 in HF. by rewrite HF, bind_S.
Qed.
Lemma mapM_app {A B} (f : A -> option B) l1 l2 k1 k2 : mapM f l1 = Some k1 -> mapM f l2 = Some k2 -> mapM f (l1 ++ l2) = Some (k1 ++ k2).
Proof. intros H1 H2. apply mapM_Some. apply mapM_Some in H1, H2. by apply Forall2_app. Qed.
Lemma mapM_concat (pss : list (list (nat * nat))) wss :
  Forall2 (fun p ws => mapM (fun e => l !! e) p.*1 = Some ws) pss wss -> mapM (fun e => l !! e) (concat pss).*1 = Some (concat wss).
Proof. induction 1; cbn; [done|]. rewrite fmap_app. by apply mapM_app. Qed.

Lemma arcs_vals_ex e d as_ : extra_for dflt link c l e -> (forall a, a ∈ as_ -> exists x y v, sarc (csd c d) a x y v) ->
  exists vs pss wss, Forall2 (fun a v => get_weight link c e d a = Some v) as_ vs /\ arcs_vals d as_ vs pss wss.
Proof.
  intros He. induction as_ as [|a as_ IH]; intros Has.
  - exists [], [], []. split; [constructor|]. split_and!; constructor.
  - destruct IH as (vs & pss & wss & H1 & H2 & H3 & H4); [intros; apply Has; by right|].
    destruct (Has a) as (x & y & v & Ha); [by left|].
    destruct (get_weight_ok dflt link P HP n tail head w c l H Hl HlP e d a x y v He Ha) as (u & Hu & p & ws & U & M & V).
    exists (u :: vs), (p :: pss), (ws :: wss). split; [by constructor|]. split_and!; by constructor.
Qed.
Lemma chpath_arcs g z as_ x L : chpath g z as_ x L -> forall a, a ∈ as_ -> exists x y v, sarc g a x y v.
Proof.
  induction 1 as [|a as_ y x L v Ha Hp IH]; intros b Hb; [by apply elem_of_nil in Hb|].
  apply elem_of_cons in Hb as [->|Hb]; [by exists y, x, v|by apply IH].
Qed.

(** The two halves of a path: [up] and [down] are the arcs found from the meeting node on. *)
Lemma up_half e s z up x L :
  extra_for dflt link c l e -> chpath (ch_fwd c) z up x L -> climb s (length (s_pnode s)) x = Some (up, z) -> up <> [] ->
  exists v p ws, up_distance link (get_weight link c e true) s x = Some v /\ unpack_all c true (rev up) = Some p /\
    mapM (fun e => l !! e) p.*1 = Some ws /\ vals dflt link P v ws.
Proof.
  intros He Hp Hc Hne. destruct (arcs_vals_ex e true up He (chpath_arcs _ _ _ _ _ Hp)) as (vs & pss & wss & Hg & HU & HM & HV).
  destruct up as [|a up]; [done|]. inversion Hg as [|? v ? vs' Hv Hvs]; subst. inversion HU as [|? p ? pss' Hpu Hpus]; subst.
  inversion HM as [|? ws ? wss' Hws Hwss]; subst. inversion HV as [|? ? ? ? Vv Vvs]; subst.
  eexists _, _, _. split; [by eapply up_distance_ok|]. split; [apply unpack_all_concat; by apply Forall2_rev|].
  split; [apply mapM_concat; by apply (Forall2_rev _ (p :: pss') (ws :: wss'))|]. cbn [rev]. rewrite concat_app. cbn. rewrite app_nil_r.
  by apply foldl_inv_vals.
Qed.
Lemma down_half e s z down x L :
  extra_for dflt link c l e -> chpath (ch_bwd c) z down x L -> climb s (length (s_pnode s)) x = Some (down, z) -> down <> [] ->
  exists v p ws, up_distance (inverse_link link) (get_weight link c e false) s x = Some v /\ unpack_all c false down = Some p /\
    mapM (fun e => l !! e) p.*1 = Some ws /\ vals dflt link P v ws.
Proof.
  intros He Hp Hc Hne. destruct (arcs_vals_ex e false down He (chpath_arcs _ _ _ _ _ Hp)) as (vs & pss & wss & Hg & HU & HM & HV).
  destruct down as [|a up]; [done|]. inversion Hg as [|? v ? vs' Hv Hvs]; subst. inversion HU as [|? p ? pss' Hpu Hpus]; subst.
  inversion HM as [|? ws ? wss' Hws Hwss]; subst. inversion HV as [|? ? ? ? Vv Vvs]; subst.
  eexists _, _, _. split; [by eapply up_distance_ok|]. split; [apply unpack_all_concat; by constructor|].
  split; [apply mapM_concat; by constructor|]. cbn. by apply (foldl_vals dflt link P HP).
Qed.

(** The whole path. *)
Lemma internal_extra_ok e f b x up z L1 down z' L2 :
  extra_for dflt link c l e ->
  chpath (ch_fwd c) z up x L1 -> climb f (length (s_pnode f)) x = Some (up, z) ->
  chpath (ch_bwd c) z' down x L2 -> climb b (length (s_pnode b)) x = Some (down, z') ->
  exists v p1 p2, internal_extra_distance dflt link (get_weight link c e) (Some x) f b = Some v /\
    unpack_all c true (rev up) = Some p1 /\ unpack_all c false down = Some p2 /\ extra_along dflt link l (p1 ++ p2).*1 v.
Proof.
  intros He P1 C1 P2 C2. destruct (climb_pnode _ _ _ _ _ C1) as (o1 & E1 & N1). destruct (climb_pnode _ _ _ _ _ C2) as (o2 & E2 & N2).
  unfold internal_extra_distance. rewrite E1, bind_S, E2, bind_S.
  destruct o1 as [y1|]; destruct o2 as [y2|].
  - destruct (up_half e f z up x L1 He P1 C1) as (v1 & p1 & w1 & -> & U1 & M1 & V1); [by intros ?%N1|].
    destruct (down_half e b z' down x L2 He P2 C2) as (v2 & p2 & w2 & -> & U2 & M2 & V2); [by intros ?%N2|].
    rewrite !bind_S. exists (link v1 v2), p1, p2. do 3 (split; [done|]). exists (w1 ++ w2).
    rewrite fmap_app. split; [by apply mapM_app|]. by apply (vals_app dflt link P HP).
  - destruct (up_half e f z up x L1 He P1 C1) as (v1 & p1 & w1 & -> & U1 & M1 & V1); [by intros ?%N1|].
    assert (down = []) as -> by (by apply N2). exists v1, p1, []. do 3 (split; [done|]). exists w1. rewrite app_nil_r. split; [done|]. apply V1.
  - destruct (down_half e b z' down x L2 He P2 C2) as (v2 & p2 & w2 & -> & U2 & M2 & V2); [by intros ?%N2|].
    assert (up = []) as -> by (by apply N1). exists v2, [], p2. do 3 (split; [done|]). exists w2. split; [done|]. apply V2.
  - assert (up = []) as -> by (by apply N1). assert (down = []) as -> by (by apply N2). exists dflt, [], []. do 3 (split; [done|]). by exists [].
Qed.
End paths.
