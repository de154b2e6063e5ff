(** C19: tag maps. *)
From Verif Require Import Base CchCustomizeProofs TagMapModel TagMapSpec TagMapProofs.

(** What can be done with a tag map. *)
Inductive tm_op (V : Type) := Build (kv : list (cstring * V)) | Clear.
Arguments Build {V}. Arguments Clear {V}.
Definition tm_do {V} (t : tagmap V) (o : tm_op V) : option (tagmap V) := match o with Build kv => tm_build t kv | Clear => tm_clear t end.
Definition tm_run {V} (l : list (tm_op V)) : option (tagmap V) := for_each l (fun o t => tm_do t o) tm_new.
(** The tag list an object stands for: that of the last build unless cleared. *)
Definition tm_content {V} (l : list (tm_op V)) : list (cstring * V) := match last l with Some (Build kv) => kv | _ => [] end.
Definition tm_small {V} (o : tm_op V) : Prop := match o with Build kv => length kv <= N.to_nat 65536 | Clear => True end.

(** After any history of builds and clears, nothing is accessed outside an array, and every
    look-up returns the value of the first pair with the key, or nothing if there is none. *)
Theorem C19_lookup {V} (l : list (tm_op V)) : Forall tm_small l ->
  exists t, tm_run l = Some t /\ forall key, tm_lookup t key = Some (first_value (tm_content l) key).
Proof.
  intros H. unfold tm_run.
  destruct (for_each_inv (fun pre t => tm_wf t /\ forall key, tm_lookup t key = Some (first_value (tm_content pre) key)) (fun o (t : tagmap V) => tm_do t o) l tm_new) as (t & E & _ & Ht).
  - split; [apply wf_new|]. intros key. unfold tm_lookup, tm_new. cbn [entry_begin entry_end entry]. rewrite key_hash_eq, bind_S.
    rewrite !lookup_replicate_2 by apply key_hash_lt. rewrite !bind_S. done.
  - intros pre o post t El [Hw _]. assert (tm_small o) as Ho by (rewrite Forall_forall in H; apply H; rewrite El; apply elem_of_app; right; constructor).
    unfold tm_content. rewrite last_snoc. destruct o as [kv|]; cbn [tm_do].
    + destruct (build_spec t kv Hw Ho) as (t' & E & Hw' & Hl & _). exists t'. done.
    + pose proof (clear_spec t Hw) as E. eexists. split; [exact E|]. destruct (wf_clear t _ Hw E) as (Hw' & Hl & _). done.
  - exists t. done.
Qed.
Print Assumptions C19_lookup.

(** The entries that can be iterated over after a build are the pairs of the list. *)
Theorem C19_entries {V} (l : list (tm_op V)) kv : Forall tm_small (l ++ [Build kv]) ->
  exists t, tm_run (l ++ [Build kv]) = Some t /\ tm_size t = length kv /\ forall p, p ∈ entry t <-> p ∈ kv.
Proof.
  intros H. apply Forall_app in H as [H Hkv]. apply Forall_cons in Hkv as [Hkv _]. unfold tm_run.
  destruct (for_each_inv (fun pre t => tm_wf t) (fun o (t : tagmap V) => tm_do t o) l tm_new) as (t & E & Ht).
  - apply wf_new.
  - intros pre o post t El Hw. assert (tm_small o) as Ho by (rewrite Forall_forall in H; apply H; rewrite El; apply elem_of_app; right; constructor).
    destruct o as [kv'|]; cbn [tm_do].
    + destruct (build_spec t kv' Hw Ho) as (t' & E & Hw' & _). by exists t'.
    + pose proof (clear_spec t Hw) as E. eexists. split; [exact E|]. by destruct (wf_clear t _ Hw E) as (Hw' & _).
  - destruct (build_spec t kv Ht Hkv) as (t' & E' & _ & _ & Hs & He). exists t'. split; [|done].
    assert (forall l1 l2 (s : tagmap V), for_each (l1 ++ l2) (fun o t => tm_do t o) s = (s' ← for_each l1 (fun o t => tm_do t o) s; for_each l2 (fun o t => tm_do t o) s')) as Happ.
    { induction l1 as [|x l1 IH]; intros l2 s; [done|]. cbn [for_each app]. destruct (tm_do s x); [cbn; apply IH|done]. }
    rewrite Happ, E, bind_S. cbn [for_each tm_do]. by rewrite E'.
Qed.
Print Assumptions C19_entries.

(** After clear the entries of the previous build are still there for iteration and counting:
    the map answers as empty and at the same time reports a size (the decoder clears the map
    for dense nodes of blocks without tags). *)
Definition str_a : cstring := [97; 98]%N.
Definition str_b : cstring := [97; 99]%N.
Theorem C19_clear_refuted : exists (l : list (tm_op nat)) t, tm_run (l ++ [Clear]) = Some t /\
  tm_lookup t str_a = Some None /\ tm_size t = 1 /\ tm_empty t = false /\ entry t = [(str_a, 5)].
Proof. exists [Build [(str_a, 5)]]. destruct (tm_run ([Build [(str_a, 5)]] ++ [Clear])) as [t|] eqn:E; [|vm_compute in E; discriminate].
  exists t. split; [done|]. assert (t = default tm_new (tm_run ([Build [(str_a, 5)]] ++ [Clear]))) as -> by (by rewrite E). clear E. vm_compute. done. Qed.
Print Assumptions C19_clear_refuted.

(** The bound on the number of pairs is needed: the pair number is stored in 16 bits (lines 65 and
    72), so with 65537 pairs the last one is never found. *)
Lemma entries_bound {V} (t t' : tagmap V) kv p : tm_build t kv = Some t' -> p ∈ entry t' -> exists j, j < N.to_nat 65536 /\ kv !! j = Some p.
Proof.
  unfold tm_build. intros E. apply bind_Some in E as (t1 & _ & E). apply bind_Some in E as (hel & _ & E). apply bind_Some in E as ([[[en b] e] ph] & E & E').
  apply (inj Some) in E'. subst t'. cbn [entry].
  revert p. unfold for_range in E.
  refine (for_n_inv' (fun _ '(en, _, _, _) => forall p, p ∈ en -> exists j, j < N.to_nat 65536 /\ kv !! j = Some p) _ _ _ _ _ E _ _); [by intros q ?%elem_of_nil|]. clear.
  intros i [[[en b] e] ph] [[[en' b'] e'] ph'] _ H E. apply bind_Some in E as (x & _ & E). apply bind_Some in E as (q & Hq & E). apply bind_Some in E as (b1 & _ & E). apply bind_Some in E as (e1 & _ & E).
  injection E as <- <- <- <-. intros p [Hp|Hp]%elem_of_app; [by apply H|]. apply elem_of_list_singleton in Hp as ->. eexists. split; [|exact Hq].
  change 65535%N with (N.ones 16). rewrite N.land_ones. pose proof (N.mod_lt x (2 ^ 16) ltac:(done)) as Hm. change (2 ^ 16)%N with 65536%N in *. clear -Hm. lia.
Qed.
Lemma search_entry {V} (en : list (cstring * V)) key v n i : tm_search n i en key = Some (Some v) -> (key, v) ∈ en.
Proof.
  revert i. induction n as [|n IH]; intros i; cbn [tm_search]; [done|]. intros E. apply bind_Some in E as ([k w] & Hk & E). case_decide as Hd; [|by eapply IH].
  cbn [fst snd] in *. injection E as <-. subst k. by eapply elem_of_list_lookup_2.
Qed.
Theorem C19_large_refuted : exists (kv : list (cstring * nat)), length kv = N.to_nat 65537 /\
  ~ exists t, tm_run [Build kv] = Some t /\ tm_lookup t str_b = Some (first_value kv str_b).
Proof.
  assert (exists n, n = N.to_nat 65536) as [n Hn] by (eexists; reflexivity). exists (replicate n (str_a, 0) ++ [(str_b, 1)]). split; [rewrite app_length, replicate_length; cbn [length]; lia|].
  intros (t & E & Hl). unfold tm_run in E. cbn [for_each tm_do] in E. apply bind_Some in E as (t' & E & Et). injection Et as ->.
  assert (first_value (replicate n (str_a, 0) ++ [(str_b, 1)]) str_b = Some 1) as Hf. { clear. induction n as [|n IH]; [reflexivity|]. cbn [replicate app first_value]. rewrite decide_False by done. exact IH. }
  rewrite Hf in Hl. unfold tm_lookup in Hl. apply bind_Some in Hl as (h & _ & Hl). apply bind_Some in Hl as (b & _ & Hl). apply bind_Some in Hl as (e & _ & Hl).
  apply search_entry in Hl. destruct (entries_bound _ _ _ _ E Hl) as (j & Hj & Hkv). rewrite <- Hn in Hj. rewrite lookup_app_l in Hkv by (rewrite replicate_length; exact Hj).
  apply lookup_replicate in Hkv as [Hkv _]. discriminate Hkv.
Qed.
Print Assumptions C19_large_refuted.

(** Non-trivial: two keys with the same hash (first, middle and last letter agree), a duplicate key and a rebuild. *)
Definition k1 : cstring := [104; 105; 103; 104; 119; 97; 121]%N.
Definition k2 : cstring := [104; 105; 103; 104; 119; 120; 121]%N.
Definition ex_ops : list (tm_op nat) := [Build [(str_a, 1); (k1, 2)]; Build [(k2, 1); (k1, 2); (k2, 3); ([], 4); (str_b, 5)]].
Example C19_ex : Forall tm_small ex_ops /\ compute_hash k1 = compute_hash k2 /\
  exists t, tm_run ex_ops = Some t /\ tm_lookup t k1 = Some (Some 2) /\ tm_lookup t k2 = Some (Some 1) /\ tm_lookup t [] = Some (Some 4) /\ tm_lookup t str_a = Some None.
Proof.
  assert (Forall tm_small ex_ops) as H. { unfold ex_ops. apply Forall_cons. split; [cbn; lia|]. apply Forall_cons. split; [cbn; lia|constructor]. }
  split; [done|]. split; [reflexivity|]. destruct (C19_lookup ex_ops H) as (t & E & Hl). exists t. split; [done|]. rewrite !Hl. clear E Hl H t. vm_compute. done.
Qed.
