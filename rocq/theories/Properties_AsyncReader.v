(** Properties of the asynchronous reader (src/buffered_asynchronous_reader.cpp): C37. *)
From Verif Require Import Base AsyncReaderModel AsyncReaderSpec AsyncReaderProofs AsyncReaderLiveProofs.

Ltac Zify.zify_post_hook ::= idtac.

Section C37.
  Context (B : nat) (HB : 0 < B) (buf : list N) (Hbuf : length buf = 6 * B).

  (** What read has returned is a prefix of what byte_source has delivered. *)
  Theorem C37_prefix evs s :
    run B (reader_init buf) evs s -> returned evs `prefix_of` delivered evs.
  Proof using HB Hbuf.
    intros Hr. destruct (run_inv B HB _ _ _ Hbuf Hr) as (D & T & l & Hi).
    rewrite (i_ret _ _ _ _ _ _ Hi). transitivity D; [|apply (i_pre _ _ _ _ _ _ Hi)].
    exists (drop T D). symmetry. apply take_drop.
  Qed.

  (** A block remains in memory until read returns the next one. *)
  Theorem C37_block_stays evs1 p bs evs2 s :
    run B (reader_init buf) (evs1 ++ Block p bs :: evs2) s -> Forall (fun ev => is_block ev = false) evs2 ->
    slice (r_buf s) p (length bs) = Some bs.
  Proof using HB Hbuf. by apply block_stable. Qed.

  (** Until then the worker, and byte_source on its behalf, does not write to it: there is no data race. *)
  Theorem C37_block_not_written evs1 p bs evs2 s i :
    run B (reader_init buf) (evs1 ++ Block p bs :: evs2) s -> Forall (fun ev => is_block ev = false) evs2 ->
    p <= i < p + length bs -> ~ worker_writes B s i.
  Proof using HB Hbuf. by apply (block_not_written B HB buf). Qed.
  (** [worker_writes] is all that is written to. *)
  Theorem C37_writes evs s ev s' i :
    run B (reader_init buf) evs s -> step B s ev s' -> ~ worker_writes B s i -> r_buf s' !! i = r_buf s !! i.
  Proof using HB Hbuf.
    intros Hr Hs Hw. destruct (run_inv B HB _ _ _ Hbuf Hr) as (D & T & l & Hi). by apply (step_writes B HB evs s D T l ev).
  Qed.

  (** read returns null only if byte_source has come to its end and less than what is asked for is left. *)
  Theorem C37_null evs s sz s' :
    run B (reader_init buf) evs s -> step B s (Null sz) s' ->
    SrcEnd ∈ evs /\ r_w s' = WDone /\ length (delivered evs) < length (returned evs) + sz.
  Proof using HB Hbuf.
    intros Hr Hs. destruct (run_inv B HB _ _ _ Hbuf Hr) as (D & T & l & Hi).
    pose proof (inv_in_buffer B HB _ _ _ _ _ Hi) as Hin.
    remember (Null sz) as ev eqn:Hev. destruct Hs; try discriminate Hev. injection Hev as ->. subst.
    pose proof (i_eof' _ _ _ _ _ _ Hi eq_refl eq_refl) as Hw. cbn in Hw. subst w.
    split; [by apply (i_eof _ _ _ _ _ _ Hi)|]. split; [done|].
    assert (tm = false) as ->.
    { pose proof (i_term _ _ _ _ _ _ Hi) as Ht. cbn in Ht. destruct tm; [|done]. specialize (Ht eq_refl). discriminate. }
    pose proof (i_pub _ _ _ _ _ _ Hi eq_refl) as Hp. cbn in Hp. rewrite app_nil_r in Hp. rewrite <- Hp.
    pose proof (i_T _ _ _ _ _ _ Hi). rewrite (i_ret _ _ _ _ _ _ Hi), take_length. lia.
  Qed.

  (** read of at most the block size throws only if byte_source has thrown. *)
  Theorem C37_throw evs s sz s' :
    run B (reader_init buf) evs s -> step B s (Throw sz) s' -> SrcThrow ∈ evs.
  Proof using HB Hbuf.
    intros Hr Hs. destruct (run_inv B HB _ _ _ Hbuf Hr) as (D & T & l & Hi).
    inversion Hs; subst. by apply (i_exc _ _ _ _ _ _ Hi).
  Qed.

  (** As long as byte_source has not thrown, a read is never stuck; the destructor never is. *)
  Theorem C37_progress_partial evs s :
    run B (reader_init buf) evs s -> (in_read s /\ SrcThrow ∉ evs) \/ in_dtor s ->
    exists ev s', step B s ev s' /\ outside ev = false /\ ev <> SrcThrow.
  Proof using HB Hbuf.
    intros Hr Hb. destruct (run_inv B HB _ _ _ Hbuf Hr) as (D & T & l & Hi). by apply (progress B HB evs s D T l).
  Qed.
  (** The threads can do only so many steps while a call is not finished, apart from wake-ups without reason and
      the writes of byte_source: with [C37_progress_partial], every call ends. *)
  Theorem C37_bounded evs0 s evs s' :
    run B (reader_init buf) evs0 s -> run_in B busy s evs s' ->
    length (filter (fun ev => outside ev = false) evs) <= 50 * B + 25 + 6 * length (filter (fun ev => outside ev = true) evs).
  Proof using HB Hbuf.
    intros Hr Hb. destruct (run_inv B HB _ _ _ Hbuf Hr) as (D & T & l & Hi).
    destruct (run_in_rank B HB _ _ _ _ _ _ _ Hi Hb) as (D' & T' & l' & _ & _ & Hle).
    pose proof (rank_bound B HB s). lia.
  Qed.
End C37.

Lemma run_cons B s ev s1 evs s' : step B s ev s1 -> run B s1 evs s' -> run B s (ev :: evs) s'.
Proof.
  intros Hs Hr. induction Hr as [|s1 evs s2 ev' s3 Hr IH Hs'].
  - apply (run_snoc B s [] s ev); [constructor|done].
  - rewrite app_comm_cons. apply (run_snoc B s _ s2); [by apply IH|done].
Qed.

Ltac by_step := solve [ done | cbn; lia | reflexivity | split; [done|]; intros i Hi; destruct (decide (i < 12)); [do 12 (destruct i; [try done; lia|]); lia|rewrite !lookup_ge_None_2 by (cbn; lia); done] ].
Definition ar_evs : list ev := 
  [ Tau; Tau; Tau; Scribble; Deliver [1; 2]%N; Tau; Tau; Tau; Deliver [3; 4]%N; Tau; Tau; Tau;
    Deliver [5; 6]%N; Tau; Tau; Tau; Deliver [7]%N; Tau; Tau; Tau; Call 1; Tau; Block 0 [1]%N; Call 2;
    Tau; Block 1 [2; 3]%N; Tau; Tau; Deliver [8; 9]%N; Tau; Tau; Tau; Deliver [10; 11]%N; Tau; Tau; Tau;
    Call 2; Tau; Block 3 [4; 5]%N; Call 2; Tau; Block 5 [6; 7]%N; Call 2; Tau; Block 7 [8; 9]%N; Call 2; Tau; Block 9 [10; 11]%N;
    Call 1; Tau; Tau; Tau; Spurious; Tau; Tau; Tau; Tau; Tau; SrcEnd; Tau;
    Tau; Tau; Null 1; Destroy; Tau; Tau; Destroyed ].
Example ar_run : exists s, run 2 (reader_init (repeat 0%N 12)) ar_evs s.
Proof.
  eexists. unfold ar_evs, reader_init. cbn [repeat].
  eapply run_cons; [eapply st_ctor; by_step|]. cbn [wake_m wake_w].
  eapply run_cons; [eapply st_wstart; by_step|]. cbn [wake_m wake_w].
  eapply run_cons; [eapply st_wunlock; by_step|]. cbn [wake_m wake_w].
  eapply run_cons; [apply (st_scribble 2 _ [9; 0; 0; 0; 0; 0; 0; 0; 0; 0; 0; 0]%N); by_step|].
  eapply run_cons; [eapply st_deliver; by_step|]. cbn [wake_m wake_w].
  eapply run_cons; [eapply st_wlock; by_step|]. cbn [wake_m wake_w].
  eapply run_cons; [eapply st_wstore; by_step|]. cbn [length app take drop wake_m].
  eapply run_cons; [eapply st_wunlock; by_step|]. cbn [wake_m wake_w].
  eapply run_cons; [eapply st_deliver; by_step|]. cbn [wake_m wake_w].
  eapply run_cons; [eapply st_wlock; by_step|]. cbn [wake_m wake_w].
  eapply run_cons; [eapply st_wstore; by_step|]. cbn [length app take drop wake_m].
  eapply run_cons; [eapply st_wunlock; by_step|]. cbn [wake_m wake_w].
  eapply run_cons; [eapply st_deliver; by_step|]. cbn [wake_m wake_w].
  eapply run_cons; [eapply st_wlock; by_step|]. cbn [wake_m wake_w].
  eapply run_cons; [eapply st_wstore; by_step|]. cbn [length app take drop wake_m].
  eapply run_cons; [eapply st_wunlock; by_step|]. cbn [wake_m wake_w].
  eapply run_cons; [eapply st_deliver; by_step|]. cbn [wake_m wake_w].
  eapply run_cons; [eapply st_wlock; by_step|]. cbn [wake_m wake_w].
  eapply run_cons; [eapply st_wstore; by_step|]. cbn [length app take drop wake_m].
  eapply run_cons; [eapply st_wwait; by_step|]. cbn [wake_m wake_w].
  eapply run_cons; [eapply st_call; by_step|]. cbn [wake_m wake_w].
  eapply run_cons; [eapply st_lock; by_step|]. cbn [wake_m wake_w].
  eapply run_cons; [eapply st_block; by_step|]. cbn.
  eapply run_cons; [eapply st_call; by_step|]. cbn [wake_m wake_w].
  eapply run_cons; [eapply st_lock; by_step|]. cbn [wake_m wake_w].
  eapply run_cons; [eapply st_block; by_step|]. cbn.
  eapply run_cons; [eapply st_wrelock; by_step|]. cbn [wake_m wake_w].
  eapply run_cons; [eapply st_wunlock; by_step|]. cbn [wake_m wake_w].
  eapply run_cons; [eapply st_deliver; by_step|]. cbn [wake_m wake_w].
  eapply run_cons; [eapply st_wlock; by_step|]. cbn [wake_m wake_w].
  eapply run_cons; [eapply st_wstore; by_step|]. cbn [length app take drop wake_m].
  eapply run_cons; [eapply st_wunlock; by_step|]. cbn [wake_m wake_w].
  eapply run_cons; [eapply st_deliver; by_step|]. cbn [wake_m wake_w].
  eapply run_cons; [eapply st_wlock; by_step|]. cbn [wake_m wake_w].
  eapply run_cons; [eapply st_wstore; by_step|]. cbn [length app take drop wake_m].
  eapply run_cons; [eapply st_wwait; by_step|]. cbn [wake_m wake_w].
  eapply run_cons; [eapply st_call; by_step|]. cbn [wake_m wake_w].
  eapply run_cons; [eapply st_lock; by_step|]. cbn [wake_m wake_w].
  eapply run_cons; [eapply st_block; by_step|]. cbn.
  eapply run_cons; [eapply st_call; by_step|]. cbn [wake_m wake_w].
  eapply run_cons; [eapply st_lock; by_step|]. cbn [wake_m wake_w].
  eapply run_cons; [eapply st_block; by_step|]. cbn.
  eapply run_cons; [eapply st_call; by_step|]. cbn [wake_m wake_w].
  eapply run_cons; [eapply st_lock; by_step|]. cbn [wake_m wake_w].
  eapply run_cons; [eapply st_block; by_step|]. cbn.
  eapply run_cons; [eapply st_call; by_step|]. cbn [wake_m wake_w].
  eapply run_cons; [eapply st_lock; by_step|]. cbn [wake_m wake_w].
  eapply run_cons; [eapply st_block; by_step|]. cbn.
  eapply run_cons; [eapply st_call; by_step|]. cbn [wake_m wake_w].
  eapply run_cons; [eapply st_lock; by_step|]. cbn [wake_m wake_w].
  eapply run_cons; [eapply st_wait; by_step|]. cbn [wake_m wake_w].
  eapply run_cons; [eapply st_sleep; by_step|]. cbn [wake_m wake_w].
  eapply run_cons; [eapply st_spurious; by_step|]. cbn [wake_m wake_w].
  eapply run_cons; [eapply st_relock; by_step|]. cbn [wake_m wake_w].
  eapply run_cons; [eapply st_wait; by_step|]. cbn [wake_m wake_w].
  eapply run_cons; [eapply st_sleep; by_step|]. cbn [wake_m wake_w].
  eapply run_cons; [eapply st_wrelock; by_step|]. cbn [wake_m wake_w].
  eapply run_cons; [eapply st_wunlock; by_step|]. cbn [wake_m wake_w].
  eapply run_cons; [eapply st_src_end; by_step|]. cbn [wake_m wake_w].
  eapply run_cons; [eapply st_wlock; by_step|]. cbn [wake_m wake_w].
  eapply run_cons; [eapply st_weof; by_step|]. cbn [wake_m wake_w].
  eapply run_cons; [eapply st_relock; by_step|]. cbn [wake_m wake_w].
  eapply run_cons; [eapply st_null; by_step|]. cbn [wake_m wake_w].
  eapply run_cons; [eapply st_destroy; by_step|]. cbn [wake_m wake_w].
  eapply run_cons; [eapply st_term; by_step|]. cbn [wake_m wake_w].
  eapply run_cons; [eapply st_notify; by_step|]. cbn [wake_m wake_w].
  eapply run_cons; [eapply st_join; by_step|]. cbn [wake_m wake_w].
  apply run_nil.
Qed.
Example ar_returned : returned ar_evs = [1; 2; 3; 4; 5; 6; 7; 8; 9; 10; 11]%N /\ Block 9 [10; 11]%N ∈ ar_evs /\ Null 1 ∈ ar_evs /\ Destroyed ∈ ar_evs.
Proof. split; [reflexivity|]. unfold ar_evs. rewrite !elem_of_list_In. cbn. tauto. Qed.

(** While it waits in read, the thread can be in a state in which it remains forever: an exception of byte_source between
    the evaluation of the predicate and the wait is not noticed, because it is reported without the mutex. *)
Theorem C37_lost_exception_refuted :
  exists evs s, run 1 (reader_init (repeat 0%N 6)) evs s /\ in_read s /\ SrcThrow ∈ evs /\
    (forall ev s', step 1 s ev s' -> outside ev = true).
Proof.
  exists [Tau; Tau; Tau; Call 1; Tau; Tau; SrcThrow; Tau; Tau; Tau]. eexists. split.
  { unfold reader_init. cbn [repeat].
    eapply run_cons; [apply st_ctor|]. eapply run_cons; [apply st_wstart|]. eapply run_cons; [eapply st_wunlock; by_step|].
    eapply run_cons; [apply st_call; by_step|]. eapply run_cons; [apply st_lock|]. eapply run_cons; [eapply st_wait; by_step|].
    eapply run_cons; [apply st_src_throw|]. eapply run_cons; [apply st_wthrow|]. eapply run_cons; [apply st_wthrown|].
    cbn [wake_m]. eapply run_cons; [apply st_sleep|]. apply run_nil. }
  split; [exact I|]. split.
  { rewrite elem_of_list_In. cbn. tauto. }
  intros ev s' Hs. inversion Hs; subst; try done.
Qed.

Print Assumptions C37_prefix.
Print Assumptions C37_block_stays.
Print Assumptions C37_block_not_written.
Print Assumptions C37_writes.
Print Assumptions C37_null.
Print Assumptions C37_throw.
Print Assumptions C37_progress_partial.
Print Assumptions C37_bounded.
Print Assumptions C37_lost_exception_refuted.
