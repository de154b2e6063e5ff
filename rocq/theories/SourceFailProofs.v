(** Proofs about reading from a device on which reading can fail. *)
From Verif Require Import Base SourceFailModel SourceFailSpec.
Ltac Zify.zify_post_hook ::= idtac.

Lemma take_nil_cases {A} k (l : list A) : take k l = [] -> k = 0 \/ drop k l = [].
Proof. destruct k; [by left|]. destruct l; [by right|done]. Qed.
Lemma errors_app l1 l2 : errors (l1 ++ l2) = errors l1 + errors l2.
Proof. unfold errors. by rewrite List.filter_app, app_length. Qed.

(** ** The POSIX variant *)
Lemma posix_run content ops : forall s, let r := run true content s ops in
  serves content false (s_pos s) ops (snd r) (s_pos (fst r)) /\ exists used, s_events s = used ++ s_events (fst r) /\ thrown (snd r) = errors used.
Proof.
  induction ops as [|op ops IH]; intros s; cbn [run].
  - split; [constructor|]. by exists [].
  - destruct op as [n|]; cbn [step].
    + unfold posix_my_read, sys_read. destruct s as [pos err events]; cbn [s_pos s_err s_events]. destruct events as [|[most|] events].
      * set (bs := take n (drop pos content)). specialize (IH (mkSource (pos + length bs) err [])). destruct (run true content _ ops) as [s' l]. cbn [fst snd s_pos s_events] in *.
        destruct IH as [H1 (used & H2 & H3)]. split; [|by exists used]. apply (sv_bytes _ _ _ _ _ (drop n (drop pos content))); [symmetry; apply take_drop|unfold bs; rewrite take_length; lia|apply take_nil_cases|done|exact H1].
      * set (k := Nat.min n (Nat.max 1 most)). set (bs := take k (drop pos content)). specialize (IH (mkSource (pos + length bs) err events)). destruct (run true content _ ops) as [s' l]. cbn [fst snd s_pos s_events] in *.
        destruct IH as [H1 (used & H2 & H3)]. split.
        -- apply (sv_bytes _ _ _ _ _ (drop k (drop pos content))); [symmetry; apply take_drop|unfold bs; rewrite take_length; lia| |done|exact H1].
           intros [E|E]%take_nil_cases; [left; unfold k in E; lia|by right].
        -- exists (Give most :: used). by rewrite H2.
      * specialize (IH (mkSource pos err events)). destruct (run true content _ ops) as [s' l]. cbn [fst snd s_pos s_events] in *. destruct IH as [H1 (used & H2 & H3)].
        split; [by constructor|]. exists (Fail :: used). split; [by rewrite H2|]. unfold thrown, errors in *. cbn. by rewrite H3.
    + unfold do_rewind. specialize (IH (mkSource 0 (s_err s) (s_events s))). destruct (run true content _ ops) as [s' l]. cbn [fst snd s_pos s_events] in *. destruct IH as [H1 (used & H2 & H3)].
      split; [by constructor|]. by exists used.
Qed.
Lemma serves_returned content whole pos ops l pos' : serves content whole pos ops l pos' -> Rewind ∉ ops -> pos <= length content ->
  take pos content ++ returned l = take pos' content /\ pos' <= length content.
Proof.
  induction 1 as [pos|pos n ops l pos' H IH|pos n bs later ops l pos' Hd Hn He Hw H IH|pos ops l pos' H IH]; intros Hr Hp.
  - unfold returned. cbn. by rewrite app_nil_r.
  - apply not_elem_of_cons in Hr as [_ Hr]. by apply IH.
  - apply not_elem_of_cons in Hr as [_ Hr]. assert (pos + length bs <= length content) as Hle.
    { pose proof (f_equal length Hd) as E. rewrite drop_length, app_length in E. lia. }
    destruct (IH Hr Hle) as [E1 E2]. split; [|done]. rewrite <- E1. unfold returned. cbn [map concat]. rewrite app_assoc. f_equal.
    rewrite <- (take_drop pos content) at 2. rewrite Hd. rewrite take_app_ge by (rewrite take_length; lia). rewrite take_length, Nat.min_l by lia. f_equal.
    replace (pos + length bs - pos) with (length bs) by lia. by rewrite take_app.
  - exfalso. apply Hr. by left.
Qed.

(** ** The variant with FILE *)
Lemma fread_good content fuel : forall n s, n <= fuel -> errors (s_events s) = 0 -> exists bs later s', fread content fuel n s = (bs, s') /\ drop (s_pos s) content = bs ++ later /\ length bs <= n /\
  (length bs = n \/ later = []) /\ s_pos s' = s_pos s + length bs /\ s_err s' = s_err s /\ errors (s_events s') = 0.
Proof.
  induction fuel as [|fuel IH]; intros n s Hn He; cbn [fread].
  - exists [], (drop (s_pos s) content), s. cbn. split_and!; [done|done|lia|left; lia|lia|done|done].
  - destruct n as [|n]; [exists [], (drop (s_pos s) content), s; cbn; split_and!; [done|done|lia|left; lia|lia|done|done]|]. set (m := S n) in *.
    assert (exists k ev, 1 <= k <= m /\ errors ev = 0 /\ sys_read content (s_pos s) m (s_events s) = (Some (take k (drop (s_pos s) content)), ev)) as (k & ev & Hk & Hev & ->).
    { unfold sys_read. destruct (s_events s) as [|[most|] ev]; [exists m, []; split_and!; [lia..|done|done]| |done]. exists (Nat.min m (Nat.max 1 most)), ev. split_and!; [lia..|done|done]. }
    destruct (take k (drop (s_pos s) content)) as [|b bs] eqn:Et.
    + exists [], [], (mkSource (s_pos s) (s_err s) ev). apply take_nil_cases in Et as Ed. destruct Ed as [Ed|Ed]; [lia|].
      assert (drop (s_pos s) content = []) as E0 by (rewrite <- (take_drop k (drop (s_pos s) content)), Et, Ed; done).
      rewrite E0. cbn. split_and!; [done|done|lia|by right|lia|done|done].
    + set (c := b :: bs) in *. assert (1 <= length c <= k) as Hc by (split; [unfold c; cbn; lia|]; rewrite <- Et, take_length; lia).
      destruct (IH (m - length c) (mkSource (s_pos s + length c) (s_err s) ev)) as (rest & later & s' & E & E1 & E2 & E3 & E4 & E5 & E6); [lia|done|]. rewrite E. cbn [s_pos s_err] in *.
      exists (c ++ rest), later, s'. split_and!; [done| | | | |done|done].
      * rewrite <- app_assoc, <- E1. assert (drop (s_pos s) content = c ++ drop k (drop (s_pos s) content)) as Ed by (by rewrite <- Et, take_drop).
        rewrite <- drop_drop. rewrite Ed at 2. rewrite drop_app. exact Ed.
      * rewrite app_length. lia.
      * rewrite app_length. destruct E3 as [E3|E3]; [left; lia|by right].
      * rewrite app_length. lia.
Qed.
Lemma file_run_good content ops : forall s, s_err s = false -> errors (s_events s) = 0 -> let r := run false content s ops in
  serves content true (s_pos s) ops (snd r) (s_pos (fst r)) /\ thrown (snd r) = 0.
Proof.
  induction ops as [|op ops IH]; intros s Hs He; cbn [run].
  - split; [constructor|done].
  - destruct op as [n|]; cbn [step].
    + unfold file_my_read. destruct (fread_good content n n s) as (bs & later & s1 & E & E1 & E2 & E3 & E4 & E5 & E6); [lia|done|]. rewrite E. rewrite E5, Hs.
      specialize (IH s1 ltac:(congruence) E6). destruct (run false content s1 ops) as [s' l]. cbn [fst snd] in *. destruct IH as [H1 H2]. split; [|exact H2].
      apply (sv_bytes _ _ _ _ _ later); [done|done| |by intros _|by rewrite <- E4]. intros ->. destruct E3 as [E3|E3]; [left; by rewrite <- E3|by right].
    + unfold do_rewind. specialize (IH (mkSource 0 (s_err s) (s_events s)) Hs He). destruct (run false content _ ops) as [s' l]. cbn [fst snd s_pos] in *. destruct IH as [H1 H2]. split; [by constructor|done].
Qed.
(** The flag stays, and is set by every error. *)
Lemma fread_flag content fuel : forall n s, exists used, s_events s = used ++ s_events (snd (fread content fuel n s)) /\
  s_err (snd (fread content fuel n s)) = s_err s || negb (errors used =? 0).
Proof.
  induction fuel as [|fuel IH]; intros n s; cbn [fread]; [exists []; split; [done|]; cbn; by rewrite orb_false_r|].
  destruct n as [|n]; [exists []; split; [done|]; cbn; by rewrite orb_false_r|]. unfold sys_read. destruct (s_events s) as [|[most|] ev].
  - destruct (take (S n) (drop (s_pos s) content)) as [|b bs]; [exists []; split; [done|]; cbn; by rewrite orb_false_r|].
    destruct (IH (S n - length (b :: bs)) (mkSource (s_pos s + length (b :: bs)) (s_err s) [])) as (used & H1 & H2). destruct (fread content fuel _ _) as [rest s']. cbn [fst snd s_events s_err] in *. by exists used.
  - destruct (take (Nat.min (S n) (Nat.max 1 most)) (drop (s_pos s) content)) as [|b bs]; [exists [Give most]; split; [done|]; cbn; by rewrite orb_false_r|].
    destruct (IH (S n - length (b :: bs)) (mkSource (s_pos s + length (b :: bs)) (s_err s) ev)) as (used & H1 & H2). destruct (fread content fuel _ _) as [rest s']. cbn [fst snd s_events s_err] in *. exists (Give most :: used). by rewrite H1.
  - exists [Fail]. split; [done|]. cbn. by rewrite orb_true_r.
Qed.
Definition refusal (op : sop) : answer := match op with Read _ => Thrown | Rewind => Done end.
Lemma file_run_flag content ops : forall s, s_err s = true -> snd (run false content s ops) = map refusal ops.
Proof.
  induction ops as [|op ops IH]; intros s Hs; cbn [run]; [done|]. destruct op as [n|]; cbn [step].
  - unfold file_my_read. destruct (fread_flag content n n s) as (used & _ & H). destruct (fread content n n s) as [bs s1]. cbn [snd] in H. rewrite Hs in H. cbn [orb] in H. rewrite H.
    specialize (IH s1 H). destruct (run false content s1 ops) as [s' l]. cbn [snd] in *. cbn [map refusal]. by rewrite IH.
  - unfold do_rewind. specialize (IH (mkSource 0 (s_err s) (s_events s)) Hs). destruct (run false content _ ops) as [s' l]. cbn [snd] in *. cbn [map refusal]. by rewrite IH.
Qed.
