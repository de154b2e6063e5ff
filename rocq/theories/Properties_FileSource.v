(** C64: FileDataSource. Descriptors are closed exactly once, and what is read from a variable are consecutive bytes of its file. *)
From stdpp Require Import gmap.
From Verif Require Import Base FileSourceModel FileSourceSpec FileSourceProofs.
Ltac Zify.zify_post_hook ::= idtac.

(** The smallest unused descriptor. *)
Definition lowest (t : gmap nat ofile) : nat := default (S (list_max (elements (dom t)))) (head (List.filter (fun i => bool_decide (t !! i = None)) (seq 0 (S (size t))))).
Definition some_unused (t : gmap nat ofile) : nat := S (list_max (elements (dom t))).
Lemma some_unused_ok : unused some_unused.
Proof.
  intros t. unfold some_unused. destruct (t !! _) as [f|] eqn:E; [|done]. exfalso.
  assert (S (list_max (elements (dom t))) ∈ elements (dom t)) as H by (apply elem_of_elements, elem_of_dom; by eexists).
  pose proof (proj1 (list_max_le (elements (dom t)) _) (le_n _)) as Hm. rewrite List.Forall_forall in Hm. apply elem_of_list_In in H. specialize (Hm _ H). lia.
Qed.
Lemma lowest_ok : unused lowest.
Proof.
  intros t. unfold lowest. destruct (List.filter _ _) as [|i l] eqn:E; cbn [head default].
  - apply some_unused_ok.
  - assert (In i (List.filter (fun i => bool_decide (t !! i = None)) (seq 0 (S (size t))))) as H by (rewrite E; by left). apply filter_In in H as [_ H]. by apply bool_decide_eq_true in H.
Qed.

(** In all executions every variable has a descriptor of its own that is open. *)
Theorem C64_owners posix files pick ops s l :
  unused pick -> fs_run posix files pick fs_start ops = Some (s, l) -> owners s.
Proof. intros Hp. apply (run_owners posix files pick Hp). apply start_owners. Qed.
Print Assumptions C64_owners.
(** If nothing is moved into a variable with an open file, then destroying the variables closes all descriptors, each of them once. *)
Theorem C64_no_leak_partial posix files pick ops s l :
  unused pick -> careful posix files pick fs_start ops -> fs_run posix files pick fs_start ops = Some (s, l) ->
  no_leak s /\ exists s' l', fs_run posix files pick s (FClose <$> seq 0 (length (fs_objs s))) = Some (s', l') /\ fs_table s' = ∅ /\ Forall (fun a => a = AOk) l'.
Proof.
  intros Hp Hc E. pose proof (C64_owners _ _ _ _ _ _ Hp E) as HO. assert (no_leak s) as HL.
  { eapply (run_no_leak posix files pick Hp); [apply start_owners| |exact Hc|exact E]. intros fd [f Hf]. change ((∅ : gmap nat ofile) !! fd = Some f) in Hf. by rewrite lookup_empty in Hf. }
  split; [done|]. by apply (close_all posix files pick Hp).
Qed.
Print Assumptions C64_no_leak_partial.
Definition ex_files (name : nat) : option (list N) := match name with 0 => Some [1; 2; 3; 4; 5]%N | 1 => Some [9; 8]%N | _ => None end.
Definition ex_ops : list fop := [FNewOpen 0; FNewOpen 7; FNew; FOpen 1 1; FRead 0 2 9; FRead 1 1 9; FNewMove 1; FRead 0 2 1; FRead 2 3 9; FMove 1 0; FRead 1 9 9; FRead 0 1 9; FRewind 1; FRead 1 1 1; FClose 2; FSize 2].
Example C64_example :
  careful true ex_files lowest fs_start ex_ops /\
  snd <$> fs_run true ex_files lowest fs_start ex_ops =
    Some [AOk; AThrow; AOk; AOk; ABytes [1; 2]; ABytes [9]; AOk; ABytes [3]; ABytes [8]; AOk; ABytes [4; 5]; AThrow; AOk; ABytes [1]; AOk; ASize 0]%N.
Proof.
  split; [|vm_compute; reflexivity]. unfold ex_ops. 
  repeat (split; [exact I || reflexivity|]; let H := fresh in intros ? ? H; vm_compute in H; injection H as <- <-). exact I.
Qed.
(** Moving into a variable with an open file leaks the descriptor: it stays open when all variables have been destroyed. *)
Theorem C64_move_refuted :
  exists posix files pick ops s l, unused pick /\ fs_run posix files pick fs_start ops = Some (s, l) /\ fs_objs s = [None; None] /\ fs_table s <> ∅.
Proof.
  exists true, ex_files, lowest, [FNewOpen 0; FNewOpen 1; FMove 0 1; FClose 0; FClose 1]. eexists _, _. split; [apply lowest_ok|]. split; [vm_compute; reflexivity|]. split; [done|].
  intros E. apply (f_equal (fun t : gmap nat ofile => bool_decide (t !! 0 = None))) in E. vm_compute in E. discriminate E.
Qed.
Print Assumptions C64_move_refuted.
(** What is read from a variable, directly or through a function object with the same descriptor, between two operations that change the variable are consecutive bytes of the file,
    whatever is done to other variables in between. *)
Theorem C64_read posix files pick ops0 s l0 ops s' l o fd content pos :
  unused pick -> fs_run posix files pick fs_start ops0 = Some (s, l0) -> has_file s o fd content pos ->
  Forall (fun op => ~ changes o op) ops -> fs_run posix files pick s ops = Some (s', l) ->
  exists bs, bytes_read posix files pick fd s ops bs /\ bs = take (length bs) (drop pos content) /\ has_file s' o fd content (pos + length bs).
Proof. intros Hp E0. apply (run_has_file posix files pick Hp). by eapply C64_owners. Qed.
Print Assumptions C64_read.
(** Opening and rewinding start at the beginning of the file. *)
Theorem C64_open posix files pick s o name s' :
  unused pick -> owners s -> fs_step posix files pick s (FOpen o name) = Some (s', AOk) -> exists fd content, files name = Some content /\ has_file s' o fd content 0.
Proof.
  intros Hp HO E. cbn [fs_step] in E. apply open_cases in E as [[? _]|[_ (old & content & Eo & Ef & ->)]]; [done|]. exists (pick (fs_table s)), content. split; [done|]. split; cbn.
  - apply list_lookup_insert. by eapply lookup_lt_Some.
  - destruct old as [x|]; [|by rewrite lookup_insert]. rewrite lookup_delete_ne; [by rewrite lookup_insert|]. intros ->. destruct HO as [H1 _]. destruct (H1 _ _ Eo) as [y Hy]. by rewrite Hp in Hy.
Qed.
Print Assumptions C64_open.
Theorem C64_rewind posix files pick s o fd content pos :
  has_file s o fd content pos -> exists s', fs_step posix files pick s (FRewind o) = Some (s', AOk) /\ has_file s' o fd content 0.
Proof.
  intros [F1 F2]. cbn [fs_step]. unfold fs_rewind. rewrite F1. cbn [mbind option_bind]. rewrite F2. cbn [mbind option_bind]. eexists. split; [done|]. split; [done|]. cbn. by rewrite lookup_insert.
Qed.
Print Assumptions C64_rewind.
(** The way read_osm_pbf uses the class: a function object delivers the whole file, piece by piece; a piece is empty only at the end of the file. *)
Theorem C64_reader posix files pick name content requests :
  files name = Some content ->
  exists s chunks, fs_run posix files pick fs_start (FNewOpen name :: FGetReader 0 :: ((fun r => FReadWith 0 (fst r) (snd r)) <$> requests)) = Some (s, AOk :: AOk :: (ABytes <$> chunks)) /\
    concat chunks `prefix_of` content /\ Forall2 (fun r c => length c <= fst r) requests chunks /\
    forall i n m, requests !! i = Some (n, m) -> 0 < n -> chunks !! i = Some [] -> concat chunks = content.
Proof.
  intros Hf. set (fd := pick (∅ : gmap nat ofile)).
  assert (forall requests pos, pos <= length content -> exists s chunks, fs_run posix files pick (mkFs {[fd := mkOfile content pos]} [Some fd] [Some fd]) ((fun r => FReadWith 0 (fst r) (snd r)) <$> requests) = Some (s, ABytes <$> chunks) /\
    concat chunks `prefix_of` drop pos content /\ Forall2 (fun r c => length c <= fst r) requests chunks /\
    (forall i n m, requests !! i = Some (n, m) -> 0 < n -> chunks !! i = Some [] -> concat chunks = drop pos content)) as Hmain.
  { clear. intros requests. induction requests as [|[n m] requests IH]; intros pos Hpos.
    - eexists _, []. split; [done|]. split; [apply prefix_nil|]. split; [constructor|done].
    - cbn [fmap list_fmap fst snd]. set (k := if posix then Nat.min n (Nat.max 1 m) else n). set (bs := take k (drop pos content)).
      assert (length bs = Nat.min k (length content - pos)) as Hl by (unfold bs; by rewrite take_length, drop_length).
      destruct (IH (pos + length bs)) as (s & chunks & E & Hpre & HF & Hend); [lia|]. exists s, (bs :: chunks).
      assert (drop pos content = bs ++ drop (pos + length bs) content) as Hsplit.
      { rewrite <- (take_drop k (drop pos content)) at 1. fold bs. f_equal. rewrite drop_drop, Hl. destruct (decide (k <= length content - pos)); [f_equal; lia|]. rewrite !drop_ge by lia. done. }
      split; [|split; [|split]].
      + change (fs_run posix files pick ?s (FReadWith 0 n m :: ?l)) with ('(s1, a) ← fs_step posix files pick s (FReadWith 0 n m); '(s2, l2) ← fs_run posix files pick s1 l; Some (s2, a :: l2)).
        assert (fs_step posix files pick (mkFs {[fd := mkOfile content pos]} [Some fd] [Some fd]) (FReadWith 0 n m) = Some (mkFs {[fd := mkOfile content (pos + length bs)]} [Some fd] [Some fd], ABytes bs)) as Es.
        { cbn [fs_step fs_readers]. unfold my_read. cbn [lookup list_lookup mbind option_bind fs_table]. change (({[fd := mkOfile content pos]} : gmap nat ofile) !! fd) with (({[fd := mkOfile content pos]} : gmap nat ofile) !! fd). rewrite lookup_singleton. cbn [mbind option_bind of_pos of_content fs_objs fs_readers]. rewrite insert_singleton. done. }
        cbn [fs_run]. rewrite Es. cbn [mbind option_bind]. rewrite E. done.
      + cbn [concat]. rewrite Hsplit. by apply prefix_app.
      + constructor; [|done]. cbn [fst]. rewrite Hl. unfold k. destruct posix; lia.
      + intros [|i] n' m' Hr Hn Hc; cbn in Hr, Hc.
        * injection Hr as -> ->. injection Hc as Hb. cbn [concat]. rewrite Hb in *. cbn [length app] in *.
          assert (length content - pos = 0) as H0 by (unfold k in Hl; destruct posix; lia).
          assert (drop pos content = []) as Hd by (apply drop_ge; lia). rewrite Nat.add_0_r, Hd in *. apply prefix_nil_inv in Hpre. done.
        * cbn [concat]. rewrite Hsplit. f_equal. by eapply Hend. }
  destruct (Hmain requests 0 ltac:(lia)) as (s & chunks & E & H1 & H2 & H3). rewrite drop_0 in *. exists s, chunks. split; [|done].
  assert (fs_step posix files pick fs_start (FNewOpen name) = Some (mkFs {[fd := mkOfile content 0]} [Some fd] [], AOk)) as E1 by (cbn; rewrite Hf; done).
  assert (fs_step posix files pick (mkFs {[fd := mkOfile content 0]} [Some fd] []) (FGetReader 0) = Some (mkFs {[fd := mkOfile content 0]} [Some fd] [Some fd], AOk)) as E2 by done.
  cbn [fs_run]. rewrite E1. cbn [mbind option_bind]. rewrite E2. cbn [mbind option_bind]. rewrite E. done.
Qed.
Print Assumptions C64_reader.
Example C64_reader_example :
  snd <$> fs_run true ex_files lowest fs_start [FNewOpen 0; FGetReader 0; FReadWith 0 2 9; FReadWith 0 9 2; FReadWith 0 9 2; FReadWith 0 9 2] = Some [AOk; AOk; ABytes [1; 2]; ABytes [3; 4]; ABytes [5]; ABytes []]%N.
Proof. vm_compute. reflexivity. Qed.
(** A function object that outlives the open file reads whatever file gets the descriptor next. *)
Theorem C64_reader_refuted :
  exists posix files pick s, unused pick /\ files 1 <> files 0 /\
    fs_run posix files pick fs_start [FNewOpen 0; FGetReader 0; FClose 0; FNewOpen 1; FReadWith 0 2 2; FRead 1 1 1] = Some (s, [AOk; AOk; AOk; AOk; ABytes (default [] (files 1)); ABytes []]).
Proof. exists true, ex_files, lowest. eexists. split; [apply lowest_ok|]. split; [done|]. vm_compute. reflexivity. Qed.
Print Assumptions C64_reader_refuted.
(** [size]: without POSIX it is the size of the file and nothing changes. *)
Theorem C64_size_partial files pick s o fd content pos :
  has_file s o fd content pos -> fs_step false files pick s (FSize o) = Some (s, ASize (length content)).
Proof.
  intros [F1 F2]. cbn [fs_step]. unfold fs_size. rewrite F1. cbn [mbind option_bind]. rewrite F2. cbn [mbind option_bind of_content of_pos]. rewrite insert_id by done. by destruct s.
Qed.
Print Assumptions C64_size_partial.
(** With POSIX the test is inverted: [size] throws for every open file. *)
Theorem C64_size_refuted :
  (forall files pick s o fd content pos, has_file s o fd content pos -> fs_step true files pick s (FSize o) = Some (s, AThrow)) /\
  exists s o fd content pos, has_file s o fd content pos.
Proof.
  split.
  - intros files pick s o fd content pos [F1 F2]. cbn [fs_step]. unfold fs_size. rewrite F1. cbn [mbind option_bind]. by rewrite F2.
  - exists (mkFs {[0 := mkOfile [1%N] 0]} [Some 0] []), 0, 0, [1%N], 0. split; [done|]. cbn [fs_table]. apply lookup_singleton.
Qed.
Print Assumptions C64_size_refuted.
