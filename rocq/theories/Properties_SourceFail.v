(** C90: reading from a FileDataSource when the system reports errors.

    Full statement (false for the variant with FILE): an error of the system leads to one exception, and whoever tries again gets all bytes of the file in order. *)
From Verif Require Import Base SourceFailModel SourceFailSpec SourceFailProofs.
Ltac Zify.zify_post_hook ::= idtac.

(** The POSIX variant: the answers are those of a stream in which exceptions are without effect, and there is one exception for each error of the system. *)
Theorem C90_posix : forall content events ops, let r := run true content (opened events) ops in
  serves content false 0 ops (snd r) (s_pos (fst r)) /\ exists used, events = used ++ s_events (fst r) /\ thrown (snd r) = errors used.
Proof. intros content events ops. exact (posix_run content ops (opened events)). Qed.
Print Assumptions C90_posix.
(** So nothing is lost or given twice, and when a read gives nothing although something was asked for, all has been given. *)
Theorem C90_posix_all : forall content events ops, Rewind ∉ ops -> let r := run true content (opened events) ops in
  returned (snd r) = take (s_pos (fst r)) content /\
  forall n, snd (step true content (fst r) (Read (S n))) = Bytes [] -> returned (snd r) = content.
Proof.
  intros content events ops Hr r. destruct (C90_posix content events ops) as [H _]. fold r in H. destruct (serves_returned _ _ _ _ _ _ H Hr) as [E Hle]; [lia|]. rewrite take_0 in E. cbn [app] in E.
  split; [exact E|]. intros n Hn. rewrite E. apply take_ge. cbn [step] in Hn.
  assert (drop (s_pos (fst r)) content = []) as Hd.
  { unfold posix_my_read, sys_read in Hn. destruct (s_events (fst r)) as [|[most|] ev]; cbn [snd] in Hn; [..|done].
    - injection Hn as Hn. by destruct (drop (s_pos (fst r)) content).
    - injection Hn as Hn. destruct (drop (s_pos (fst r)) content); [done|]. destruct most as [|[|most]]; cbn in Hn; done. }
  pose proof (f_equal length Hd) as Hl. rewrite drop_length in Hl. cbn in Hl. lia.
Qed.
Print Assumptions C90_posix_all.
(** The variant with FILE: without errors the same, and each read gives as much as there is. *)
Theorem C90_file_partial : forall content events ops, errors events = 0 -> let r := run false content (opened events) ops in
  serves content true 0 ops (snd r) (s_pos (fst r)) /\ thrown (snd r) = 0.
Proof. intros content events ops H. exact (file_run_good content ops (opened events) eq_refl H). Qed.
Print Assumptions C90_file_partial.
(** A read throws if the system reports an error during it or reported one earlier; from then on every read throws, also after rewinding. *)
Theorem C90_file_flag : forall content s n, let r := step false content s (Read n) in
  (exists used, s_events s = used ++ s_events (fst r) /\ (snd r = Thrown <-> s_err s = true \/ 0 < errors used) /\ s_err (fst r) = s_err s || negb (errors used =? 0)) /\
  (snd r = Thrown -> forall ops, snd (run false content (fst r) ops) = map (fun op => match op with Read _ => Thrown | Rewind => Done end) ops).
Proof.
  intros content s n r. destruct (fread_flag content n n s) as (used & H1 & H2). subst r. cbn [step]. unfold file_my_read. destruct (fread content n n s) as [bs s1]. cbn [snd] in H1, H2.
  destruct (s_err s1) eqn:Es; cbn [fst snd].
  - split; [|intros _ ops; by apply file_run_flag]. exists used. split; [done|]. split; [|congruence]. split; [|done]. intros _. symmetry in H2. apply orb_true_iff in H2 as [H2|H2]; [by left|right].
    apply negb_true_iff, Nat.eqb_neq in H2. lia.
  - split; [|done]. exists used. split; [done|]. split; [|congruence]. split; [done|]. symmetry in H2. apply orb_false_iff in H2 as [H2 H3]. apply negb_false_iff, Nat.eqb_eq in H3. intros [H|H]; [congruence|lia].
Qed.
Print Assumptions C90_file_flag.
(** One error, after two of four bytes: the two bytes are lost, and although nothing fails afterwards no byte is ever read again. *)
Theorem C90_file_refuted : exists content events n, errors events = 1 /\ length content = 5 /\
  s_pos (fst (run false content (opened events) [Read n])) = 2 /\ returned (snd (run false content (opened events) [Read n])) = [] /\ s_events (fst (run false content (opened events) [Read n])) = [] /\
  forall ops, snd (run false content (opened events) (Read n :: ops)) = Thrown :: map (fun op => match op with Read _ => Thrown | Rewind => Done end) ops.
Proof.
  exists [1; 2; 3; 4; 5]%N, [Give 2; Fail], 4. split; [reflexivity|]. split; [reflexivity|]. split; [reflexivity|]. split; [reflexivity|]. split; [reflexivity|].
  intros ops. pose proof (file_run_flag [1; 2; 3; 4; 5]%N ops (mkSource 2 true []) eq_refl) as H.
  change (run false [1; 2; 3; 4; 5]%N (opened [Give 2; Fail]) (Read 4 :: ops)) with (let '(s, l) := run false [1; 2; 3; 4; 5]%N (mkSource 2 true []) ops in (s, Thrown :: l)).
  destruct (run false [1; 2; 3; 4; 5]%N (mkSource 2 true []) ops) as [s l]. cbn [snd] in *. rewrite H. f_equal.
Qed.
Print Assumptions C90_file_refuted.

(** Non-trivial runs: the same events in both variants, and a file that is read again from its beginning. *)
Example C90_ex : let content := [1; 2; 3; 4; 5]%N in
  snd (run true content (opened [Give 2; Fail; Give 0]) [Read 4; Read 4; Read 4; Read 4; Read 4; Rewind; Read 3]) = [Bytes [1; 2]; Thrown; Bytes [3]; Bytes [4; 5]; Bytes []; Done; Bytes [1; 2; 3]]%N /\
  snd (run false content (opened [Give 2; Fail; Give 0]) [Read 4; Read 4; Rewind; Read 3]) = [Thrown; Thrown; Done; Thrown] /\
  errors [Give 2; Give 0] = 0 /\ snd (run false content (opened [Give 2; Give 0]) [Read 4; Rewind; Read 9]) = [Bytes [1; 2; 3; 4]; Done; Bytes [1; 2; 3; 4; 5]]%N /\
  snd (step true content (fst (run true content (opened [Fail]) [Read 9; Read 9])) (Read 1)) = Bytes [].
Proof. split_and!; reflexivity. Qed.
