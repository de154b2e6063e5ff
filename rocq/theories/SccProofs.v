(** * Correctness of the strongly connected component computation (C18) *)
From stdpp Require Import relations.
From Verif Require Import Base GraphSpec SccModel SccSpec SccInv.

Section proofs.
Context (n : nat) (fo head : list nat) (Hcsr : csr n fo head).

Definition fst' (x : nat) : nat := default 0 (fo !! x).
Definition lst' (x : nat) : nat := default 0 (fo !! S x).
Definition hd' (e : nat) : nat := default 0 (head !! e).

Lemma fl_ok x : x < n -> fst' x <= lst' x <= length head.
Proof.
  intros Hx. destruct (csr_range _ _ _ x Hcsr Hx) as (lo & hi & E1 & E2 & H).
  unfold fst', lst'. rewrite E1, E2. done.
Qed.

Lemma hd_ok x a : x < n -> fst' x <= a < lst' x -> hd' a < n.
Proof.
  intros Hx Ha. pose proof (fl_ok x Hx).
  destruct (lookup_lt_is_Some_2 head a) as [h Hh]; [lia|]. unfold hd'. rewrite Hh. cbn.
  apply (csr_head _ _ _ Hcsr). by eapply elem_of_list_lookup_2.
Qed.

Lemma Hfl' x : x < n -> fst' x <= lst' x.
Proof. intros Hx. apply fl_ok in Hx. lia. Qed.

Local Notation ginv := (inv n fst' lst' hd').
Local Notation gedge := (aedge n fst' lst' hd').
Local Notation greach := (areach n fst' lst' hd').

Lemma edge_iff x y : edge fo head x y <-> gedge x y.
Proof.
  split.
  - intros (e & Ho & Hy). pose proof (out_arc_lt _ _ _ _ _ Hcsr Ho) as [Hx He].
    destruct Ho as (lo & hi & E1 & E2 & Hr). exists e.
    unfold fst', lst', hd'. rewrite E1, E2, Hy. done.
  - intros (e & Hx & Hr & Hy). pose proof (fl_ok x Hx) as Hf.
    destruct (csr_range _ _ _ x Hcsr Hx) as (lo & hi & E1 & E2 & H).
    unfold fst', lst', hd' in *. rewrite E1, E2 in *. cbn in *.
    exists e. split; [exists lo, hi; auto|].
    destruct (lookup_lt_is_Some_2 head e) as [h Hh]; [lia|]. rewrite Hh in *. by cbn in Hy; subst.
Qed.

Lemma reach_iff x y : reach fo head x y <-> greach x y.
Proof.
  unfold reach, areach. split; intros H; induction H as [|a b c Hab _ IH]; try constructor.
  - eapply rtc_l; [|done]. by apply edge_iff.
  - eapply rtc_l; [|done]. by apply edge_iff.
Qed.

Definition abs (s : scc_state) : ast := Ast
  (fun x => default None (dfs_pos s !! x)) (fun x => default 0 (low_link s !! x))
  (fun x => default 0 (next_out s !! x)) (fun x => default false (in_component s !! x))
  (fun x => default 0 (component_of s !! x)) (next_preorder_id s) (component_count s).

Record conc (s : scc_state) (St ds : list nat) : Prop := {
  c_dfs : length (dfs_stack s) = n;
  c_dtop : dfs_top s = length ds;
  c_ds : take (dfs_top s) (dfs_stack s) = ds;
  c_scc : length (scc_stack s) = n;
  c_stop : scc_top s = length St;
  c_st : take (scc_top s) (scc_stack s) = St;
  c_iss_len : length (in_scc_stack s) = n;
  c_iss : forall x, x < n -> in_scc_stack s !! x = Some (bool_decide (x ∈ St));
  c_next : length (next_out s) = S n;
  c_pos : length (dfs_pos s) = n;
  c_low : length (low_link s) = n;
  c_ic : length (in_component s) = n;
  c_co : length (component_of s) = n
}.

Lemma default_insert {A} (d : A) (l : list A) x v y : x < length l ->
  default d (<[x:=v]> l !! y) = if decide (y = x) then v else default d (l !! y).
Proof.
  intros Hx. case_decide as H.
  - subst. by rewrite list_lookup_insert.
  - by rewrite list_lookup_insert_ne by done.
Qed.

Lemma lk_default {A} (d : A) (l : list A) x : x < length l -> l !! x = Some (default d (l !! x)).
Proof. intros Hx. destruct (lookup_lt_is_Some_2 l x Hx) as [v Hv]. by rewrite Hv. Qed.

Lemma take_insert_S {A} (l : list A) t x : t < length l -> take (S t) (<[t:=x]> l) = take t l ++ [x].
Proof.
  intros Ht. rewrite (take_S_r _ _ x) by (by apply list_lookup_insert). by rewrite take_insert by done.
Qed.

Lemma NoDup_bound (l : list nat) : NoDup l -> (forall x, x ∈ l -> x < n) -> length l <= n.
Proof.
  intros Hnd Hlt. rewrite <- (seq_length n 0). apply submseteq_length.
  apply NoDup_submseteq; [done|]. intros x Hx. apply elem_of_seq. specialize (Hlt x Hx). lia.
Qed.

Definition unv (s : scc_state) : Prop :=
  forall x, x < n -> num (abs s) x = None -> nxt (abs s) x = fst' x.

Definition unvisited (l : list (option nat)) : nat := length (filter (fun o => o = None) l).

Lemma unvisited_insert l i k : l !! i = Some None ->
  S (unvisited (<[i:=Some k]> l)) = unvisited l.
Proof.
  unfold unvisited. revert i. induction l as [|o l IH]; intros i Hi; [done|].
  destruct i as [|i]; cbn in Hi.
  - injection Hi as ->. done.
  - change (<[S i:=Some k]> (o :: l)) with (o :: <[i:=Some k]> l).
    rewrite !filter_cons. specialize (IH i Hi). case_decide; cbn [length]; lia.
Qed.

Definition fresh (s : scc_state) (P : list nat) (w : nat) : Prop :=
  w < n /\ num (abs s) w = None /\
  (P = [] \/ exists P0 x, P = P0 ++ [x] /\ nxt (abs s) x < lst' x /\ hd' (nxt (abs s) x) = w).

Lemma visit_ok s P St ds w :
  conc s St ds -> ginv (abs s) P St -> unv s -> fresh s P w ->
  exists s', visit w s = Some s' /\ conc s' (St ++ [w]) ds /\
    ginv (abs s') (P ++ [w]) (St ++ [w]) /\ unv s' /\
    S (unvisited (dfs_pos s')) = unvisited (dfs_pos s) /\
    (forall y, vis (abs s) y -> vis (abs s') y).
Proof.
  intros C I U (Hw & Hn & HP).
  assert (Epos : dfs_pos s !! w = Some None).
  { rewrite (lk_default None) by (rewrite (c_pos _ _ _ C); done). by f_equal. }
  assert (HwS : w ∉ St) by (intros Hc; apply (i_S _ _ _ _ _ _ _ I) in Hc as [Hc _]; by apply Hc).
  assert (Hcap : scc_top s < n).
  { rewrite (c_stop _ _ _ C). enough (length (St ++ [w]) <= n) by (rewrite app_length in *; cbn in *; lia).
    apply NoDup_bound.
    - apply NoDup_app. split; [exact (incr_NoDup _ _ (i_Sinc _ _ _ _ _ _ _ I))|]. split.
      + intros x Hx ->%elem_of_list_singleton. done.
      + apply NoDup_singleton.
    - intros x Hx. apply elem_of_app in Hx as [Hx|Hx%elem_of_list_singleton]; [by eapply S_lt|by subst]. }
  unfold visit. rewrite Epos, bind_S.
  rewrite (wr_Some (dfs_pos s)) by (rewrite (c_pos _ _ _ C); done). rewrite bind_S.
  rewrite (wr_Some (low_link s)) by (rewrite (c_low _ _ _ C); done). rewrite bind_S.
  rewrite (wr_Some (in_scc_stack s)) by (rewrite (c_iss_len _ _ _ C); done). rewrite bind_S.
  rewrite (wr_Some (scc_stack s)) by (rewrite (c_scc _ _ _ C); done). rewrite bind_S.
  eexists; split; [done|].
  assert (Eabs : forall y, default None (<[w:=Some (next_preorder_id s)]> (dfs_pos s) !! y)
      = if decide (y = w) then Some (next_preorder_id s) else default None (dfs_pos s !! y)).
  { intros y. apply default_insert. rewrite (c_pos _ _ _ C). done. }
  split.
  { split; cbn [dfs_stack dfs_top scc_stack scc_top in_scc_stack next_out dfs_pos low_link in_component component_of];
      rewrite ?insert_length; try apply C.
    - rewrite (c_stop _ _ _ C), app_length. cbn. lia.
    - rewrite take_insert_S by (rewrite (c_scc _ _ _ C); done). by rewrite (c_st _ _ _ C).
    - intros x Hx. destruct (decide (x = w)) as [->|Hne].
      + rewrite list_lookup_insert by (rewrite (c_iss_len _ _ _ C); done).
        rewrite bool_decide_true; [done|]. apply elem_of_app. right. by apply elem_of_list_singleton.
      + rewrite list_lookup_insert_ne by done. rewrite (c_iss _ _ _ C) by done. f_equal.
        apply bool_decide_ext. rewrite elem_of_app, elem_of_list_singleton. tauto. }
  split.
  { eapply (inv_visit n fst' lst' hd' (abs s)); [exact I|exact Hn|exact Hw|exact HP|by apply U|..]; try done.
    intros y. cbn. apply default_insert. rewrite (c_low _ _ _ C). done. }
  split.
  { intros x Hx. cbn. rewrite Eabs. case_decide; [done|]. by apply U. }
  split; [by apply unvisited_insert|].
  intros y. unfold vis. cbn. rewrite Eabs. by case_decide.
Qed.

Lemma scan_ok fuel : forall s P0 x St ds,
  conc s St ds -> ginv (abs s) (P0 ++ [x]) St -> unv s ->
  lst' x - nxt (abs s) x < fuel ->
  exists s', scan fuel head x (lst' x) s = Some s' /\ conc s' St ds /\
    ginv (abs s') (P0 ++ [x]) St /\ unv s' /\ dfs_pos s' = dfs_pos s /\
    (nxt (abs s') x = lst' x \/
     nxt (abs s') x < lst' x /\ num (abs s') (hd' (nxt (abs s') x)) = None).
Proof.
  induction fuel as [|fuel IH]; intros s P0 x St ds C I U Hf; [lia|].
  assert (HxS : x ∈ St).
  { eapply i_P; [exact I|]. apply elem_of_app. right. by apply elem_of_list_singleton. }
  assert (Hx : x < n) by (by eapply S_lt).
  assert (Enx : next_out s !! x = Some (nxt (abs s) x)).
  { cbn. apply lk_default. rewrite (c_next _ _ _ C). lia. }
  pose proof (i_nxt _ _ _ _ _ _ _ I x Hx) as Hnx.
  cbn [scan]. rewrite Enx, bind_S. case_decide as Hend.
  { exists s. auto 10. }
  set (a := nxt (abs s) x) in *.
  pose proof (fl_ok x Hx) as Hfl.
  assert (Hhn : hd' a < n) by (apply (hd_ok x); [done|lia]).
  assert (Eh : head !! a = Some (hd' a)) by (apply lk_default; lia).
  rewrite Eh, bind_S.
  assert (Ep : dfs_pos s !! hd' a = Some (num (abs s) (hd' a))).
  { cbn. apply lk_default. rewrite (c_pos _ _ _ C). done. }
  rewrite Ep, bind_S. destruct (num (abs s) (hd' a)) as [k|] eqn:Ek.
  2:{ exists s. split; [done|]. split; [done|]. split; [done|]. split; [done|]. split; [done|].
      right. fold a. split; [lia|done]. }
  rewrite (c_iss _ _ _ C) by done. rewrite bind_S.
  set (ll := if bool_decide (hd' a ∈ St) then
      <[x:=Nat.min (low (abs s) x) (low (abs s) (hd' a))]> (low_link s) else low_link s).
  assert (Ell : (if bool_decide (hd' a ∈ St) then
        lx ← low_link s !! x; lh ← low_link s !! hd' a; wr (low_link s) x (Nat.min lx lh)
      else Some (low_link s)) = Some ll).
  { unfold ll. case_bool_decide; [|done].
    rewrite (lk_default 0 (low_link s) x) by (rewrite (c_low _ _ _ C); done). rewrite bind_S.
    rewrite (lk_default 0 (low_link s) (hd' a)) by (rewrite (c_low _ _ _ C); done). rewrite bind_S.
    rewrite (wr_Some (low_link s)) by (rewrite (c_low _ _ _ C); done). done. }
  rewrite Ell, bind_S.
  rewrite (wr_Some (next_out s)) by (rewrite (c_next _ _ _ C); lia). rewrite bind_S.
  set (s1 := SccState _ _ _ _ _ _ _ _ _ _ _ _).
  assert (Hll : length ll = n).
  { unfold ll. case_bool_decide; rewrite ?insert_length; apply C. }
  assert (C1 : conc s1 St ds).
  { split; cbn [s1 dfs_stack dfs_top scc_stack scc_top in_scc_stack next_out dfs_pos low_link in_component component_of];
      rewrite ?insert_length; try apply C. done. }
  assert (En1 : forall y, nxt (abs s1) y = if decide (y = x) then S a else nxt (abs s) y).
  { intros y. cbn. apply default_insert. rewrite (c_next _ _ _ C). lia. }
  assert (I1 : ginv (abs s1) (P0 ++ [x]) St).
  { eapply (inv_scan n fst' lst' hd' (abs s)); [exact I| | | | |exact En1|..]; try done.
    - fold a. lia.
    - unfold vis. fold a. by rewrite Ek.
    - intros y. fold a. cbn [s1 abs low low_link]. unfold ll.
      case_bool_decide as Hb.
      + rewrite (decide_True _ _ Hb). rewrite default_insert by (rewrite (c_low _ _ _ C); done). done.
      + rewrite (decide_False _ _ Hb). case_decide; [by subst|done]. }
  assert (Hvx : vis (abs s) x) by (by apply (i_S _ _ _ _ _ _ _ I)).
  destruct (IH s1 P0 x St ds C1 I1) as (s' & E & C' & I' & U' & D' & F').
  { intros y Hy Hn. rewrite En1, decide_False; [by apply U|]. intros ->. by apply Hvx. }
  { rewrite En1, decide_True by done. lia. }
  exists s'. auto 10.
Qed.

Lemma pop_ok x id S1 ds : forall S2 fuel s,
  conc s (S1 ++ x :: S2) ds -> NoDup (S1 ++ x :: S2) ->
  (forall y, y ∈ S1 ++ x :: S2 -> y < n) -> length S2 < fuel ->
  exists s', pop_component fuel x id s = Some s' /\ conc s' S1 ds /\
    dfs_pos s' = dfs_pos s /\ low_link s' = low_link s /\ next_out s' = next_out s /\
    next_preorder_id s' = next_preorder_id s /\ component_count s' = component_count s /\
    (forall y, don (abs s') y = if decide (y ∈ x :: S2) then true else don (abs s) y) /\
    (forall y, cmp (abs s') y = if decide (y ∈ x :: S2) then id else cmp (abs s) y).
Proof.
  intros S2. induction S2 as [|z S2 IH] using rev_ind; intros fuel s C Hnd Hlt Hf.
  - destruct fuel as [|fuel]; [lia|]. cbn [pop_component].
    assert (Ht : scc_top s = S (length S1)) by (rewrite (c_stop _ _ _ C), app_length; cbn; lia).
    rewrite Ht.
    assert (Ez : scc_stack s !! length S1 = Some x).
    { rewrite <- (lookup_take _ (scc_top s)) by lia. rewrite (c_st _ _ _ C).
      rewrite lookup_app_r by lia. by rewrite Nat.sub_diag. }
    assert (Hx : x < n) by (apply Hlt; apply elem_of_app; right; left).
    rewrite Ez, bind_S.
    rewrite (wr_Some (in_scc_stack s)) by (rewrite (c_iss_len _ _ _ C); done). rewrite bind_S.
    rewrite (wr_Some (component_of s)) by (rewrite (c_co _ _ _ C); done). rewrite bind_S.
    rewrite (wr_Some (in_component s)) by (rewrite (c_ic _ _ _ C); done). rewrite bind_S.
    cbv zeta. rewrite decide_True by done. eexists; split; [done|].
    split.
    { split; cbn [dfs_stack dfs_top scc_stack scc_top in_scc_stack next_out dfs_pos low_link in_component component_of];
        rewrite ?insert_length; try apply C.
      - done.
      - assert (E : take (length S1) (take (scc_top s) (scc_stack s)) = S1).
        { rewrite (c_st _ _ _ C). apply take_app. }
        rewrite take_take in E. by rewrite Nat.min_l in E by lia.
      - intros y Hy. apply NoDup_app in Hnd as (_ & Hnd & _).
        destruct (decide (y = x)) as [->|Hne].
        + rewrite list_lookup_insert by (rewrite (c_iss_len _ _ _ C); done).
          rewrite bool_decide_false; [done|]. intros Hc. apply (Hnd x Hc). left.
        + rewrite list_lookup_insert_ne by done. rewrite (c_iss _ _ _ C) by done. f_equal.
          apply bool_decide_ext. rewrite elem_of_app, elem_of_list_singleton. tauto. }
    repeat (split; [done|]). split; intros y; cbn.
    + rewrite default_insert by (rewrite (c_ic _ _ _ C); done).
      repeat case_decide; try done; set_solver.
    + rewrite default_insert by (rewrite (c_co _ _ _ C); done).
      repeat case_decide; try done; set_solver.
  - destruct fuel as [|fuel]; [lia|]. cbn [pop_component].
    rewrite app_length in Hf. cbn [length] in Hf.
    set (S3 := S1 ++ x :: S2) in *.
    assert (ES : S1 ++ x :: S2 ++ [z] = S3 ++ [z]) by (unfold S3; by rewrite <- app_assoc).
    rewrite ES in C, Hnd, Hlt.
    assert (Ht : scc_top s = S (length S3)) by (rewrite (c_stop _ _ _ C), app_length; cbn; lia).
    rewrite Ht.
    assert (Ez : scc_stack s !! length S3 = Some z).
    { rewrite <- (lookup_take _ (scc_top s)) by lia. rewrite (c_st _ _ _ C).
      rewrite lookup_app_r by lia. by rewrite Nat.sub_diag. }
    assert (Hz : z < n) by (apply Hlt; apply elem_of_app; right; by apply elem_of_list_singleton).
    apply NoDup_app in Hnd as (Hnd & Hnz & _).
    assert (Hzx : z <> x).
    { intros ->. apply (Hnz x); [unfold S3; apply elem_of_app; right; left|].
      by apply elem_of_list_singleton. }
    rewrite Ez, bind_S.
    rewrite (wr_Some (in_scc_stack s)) by (rewrite (c_iss_len _ _ _ C); done). rewrite bind_S.
    rewrite (wr_Some (component_of s)) by (rewrite (c_co _ _ _ C); done). rewrite bind_S.
    rewrite (wr_Some (in_component s)) by (rewrite (c_ic _ _ _ C); done). rewrite bind_S.
    cbv zeta. rewrite decide_False by done.
    set (s1 := SccState _ _ _ _ _ _ _ _ _ _ _ _).
    assert (C1 : conc s1 S3 ds).
    { split; cbn [s1 dfs_stack dfs_top scc_stack scc_top in_scc_stack next_out dfs_pos low_link in_component component_of];
        rewrite ?insert_length; try apply C.
      - done.
      - assert (E : take (length S3) (take (scc_top s) (scc_stack s)) = S3).
        { rewrite (c_st _ _ _ C). apply take_app. }
        rewrite take_take in E. by rewrite Nat.min_l in E by lia.
      - intros y Hy. destruct (decide (y = z)) as [->|Hne].
        + rewrite list_lookup_insert by (rewrite (c_iss_len _ _ _ C); done).
          rewrite bool_decide_false; [done|]. intros Hc. apply (Hnz z Hc). by apply elem_of_list_singleton.
        + rewrite list_lookup_insert_ne by done. rewrite (c_iss _ _ _ C) by done. f_equal.
          apply bool_decide_ext. rewrite elem_of_app, elem_of_list_singleton. tauto. }
    destruct (IH fuel s1 C1 Hnd) as (s' & E & C' & D1 & D2 & D3 & D4 & D5 & D6 & D7).
    { intros y Hy. apply Hlt. apply elem_of_app. by left. }
    { lia. }
    exists s'. split; [done|]. split; [done|]. repeat (split; [done|]).
    split; intros y.
    + rewrite D6. cbn [s1 abs don in_component].
      rewrite default_insert by (rewrite (c_ic _ _ _ C); done).
      repeat case_decide; try done; set_solver.
    + rewrite D7. cbn [s1 abs cmp component_of].
      rewrite default_insert by (rewrite (c_co _ _ _ C); done).
      repeat case_decide; try done; set_solver.
Qed.

(** The state at the head of the loop 33-65; [m] bounds the remaining iterations. *)
Definition head_ok (s : scc_state) (ds : list nat) (m : nat) : Prop :=
  exists P St, conc s St ds /\ unv s /\ ginv (abs s) P St /\
    ((ds = P /\ m = 2 * unvisited (dfs_pos s) + length ds) \/
     (exists w, ds = P ++ [w] /\ fresh s P w /\ m + 2 = 2 * unvisited (dfs_pos s) + length ds)).

Definition seen (s : scc_state) (ds : list nat) (y : nat) : Prop := vis (abs s) y \/ y ∈ ds.

Lemma pop_dfs_ok s St ds x : conc s St (ds ++ [x]) ->
  exists s', pop_dfs s = Some (x, s') /\ conc s' St ds /\ abs s' = abs s /\ dfs_pos s' = dfs_pos s.
Proof.
  intros C. unfold pop_dfs.
  assert (Ht : dfs_top s = S (length ds)) by (rewrite (c_dtop _ _ _ C), app_length; cbn; lia).
  rewrite Ht.
  assert (Ez : dfs_stack s !! length ds = Some x).
  { rewrite <- (lookup_take _ (dfs_top s)) by lia. rewrite (c_ds _ _ _ C).
    rewrite lookup_app_r by lia. by rewrite Nat.sub_diag. }
  rewrite Ez, bind_S. eexists; split; [done|]. split; [|done].
  split; cbn [dfs_stack dfs_top scc_stack scc_top in_scc_stack next_out dfs_pos low_link in_component component_of];
    try apply C; [done|].
  assert (E : take (length ds) (take (dfs_top s) (dfs_stack s)) = ds).
  { rewrite (c_ds _ _ _ C). apply take_app. }
  rewrite take_take in E. by rewrite Nat.min_l in E by lia.
Qed.

Lemma push_dfs_ok s St ds x : conc s St ds -> length ds < n ->
  exists s', push_dfs x s = Some s' /\ conc s' St (ds ++ [x]) /\ abs s' = abs s /\ dfs_pos s' = dfs_pos s.
Proof.
  intros C Hl. unfold push_dfs.
  rewrite (wr_Some (dfs_stack s)) by (rewrite (c_dfs _ _ _ C), (c_dtop _ _ _ C); done). rewrite bind_S.
  eexists; split; [done|]. split; [|done].
  split; cbn [dfs_stack dfs_top scc_stack scc_top in_scc_stack next_out dfs_pos low_link in_component component_of];
    rewrite ?insert_length; try apply C.
  - rewrite (c_dtop _ _ _ C), app_length. cbn. lia.
  - rewrite take_insert_S by (rewrite (c_dfs _ _ _ C), (c_dtop _ _ _ C); done).
    by rewrite (c_ds _ _ _ C).
Qed.

Lemma step_ok s ds m : head_ok s ds m -> ds <> [] ->
  exists s' ds' m', dfs_step fo head s = Some s' /\ head_ok s' ds' m' /\ m' < m /\
    (forall y, seen s ds y -> seen s' ds' y).
Proof.
  intros (P & St & C & U & I & Hds) Hne.
  destruct (exists_last Hne) as (P0 & x & ->).
  unfold dfs_step.
  destruct (pop_dfs_ok s St P0 x C) as (s0 & -> & C0 & A0 & D0). rewrite bind_S.
  (* after the visit *)
  assert (exists s1 St1, visit x s0 = Some s1 /\ conc s1 St1 P0 /\
    ginv (abs s1) (P0 ++ [x]) St1 /\ unv s1 /\
    m = 2 * unvisited (dfs_pos s1) + length (P0 ++ [x]) /\
    (forall y, vis (abs s) y -> vis (abs s1) y)) as (s1 & St1 & -> & C1 & I1 & U1 & Hm & V1).
  { assert (U0 : unv s0) by (unfold unv; by rewrite A0).
    destruct Hds as [[HP Hm]|(w & HP & Hfr & Hm)].
    - subst P. exists s0, St. split; [|rewrite A0, D0; auto 10].
      assert (HxS : x ∈ St).
      { eapply i_P; [exact I|]. apply elem_of_app. right. by apply elem_of_list_singleton. }
      assert (Hx : x < n) by (by eapply S_lt).
      assert (Hv : vis (abs s0) x) by (rewrite A0; by apply (i_S _ _ _ _ _ _ _ I)).
      unfold visit. rewrite (lk_default None (dfs_pos s0) x) by (rewrite (c_pos _ _ _ C0); done).
      rewrite bind_S. unfold vis in Hv. cbn in Hv. by destruct (default None (dfs_pos s0 !! x)).
    - apply app_inj_tail in HP as [<- <-].
      destruct (visit_ok s0 P0 St P0 x) as (s1 & E & C1 & I1 & U1 & Hu & V1).
      + done.
      + by rewrite A0.
      + done.
      + unfold fresh. by rewrite A0.
      + exists s1, (St ++ [x]). split; [done|]. split; [done|]. split; [done|]. split; [done|].
        rewrite D0 in Hu. split; [lia|]. intros y Hy. apply V1. by rewrite A0. }
  rewrite bind_S. clear Hds C I C0 s0 A0 D0 U.
  assert (HxS : x ∈ St1).
  { eapply i_P; [exact I1|]. apply elem_of_app. right. by apply elem_of_list_singleton. }
  assert (Hx : x < n) by (by eapply S_lt).
  assert (Eend : fo !! S x = Some (lst' x)).
  { apply lk_default. rewrite (csr_len _ _ _ Hcsr). lia. }
  rewrite Eend, bind_S.
  destruct (scan_ok (S (length head)) s1 P0 x St1 P0 C1 I1 U1) as (s2 & -> & C2 & I2 & U2 & D2 & F2).
  { pose proof (fl_ok x Hx). lia. }
  rewrite bind_S.
  assert (V2 : forall y, vis (abs s) y -> vis (abs s2) y).
  { intros y Hy. apply V1 in Hy. unfold vis in *. cbn in *. by rewrite D2. }
  rewrite app_length in Hm. cbn [length] in Hm. rewrite <- D2 in Hm.
  assert (Enx : next_out s2 !! x = Some (nxt (abs s2) x)).
  { cbn. apply lk_default. rewrite (c_next _ _ _ C2). lia. }
  rewrite Enx, bind_S.
  assert (Hvx : vis (abs s2) x) by (by apply (i_S _ _ _ _ _ _ _ I2)).
  case_decide as Hend.
  - (* all arcs are scanned *)
    assert (Ep : dfs_pos s2 !! x = Some (num (abs s2) x)).
    { cbn. apply lk_default. rewrite (c_pos _ _ _ C2). done. }
    assert (El : low_link s2 !! x = Some (low (abs s2) x)).
    { cbn. apply lk_default. rewrite (c_low _ _ _ C2). done. }
    rewrite Ep, bind_S, El, bind_S.
    assert (Hnu : num (abs s2) x = Some (nu (abs s2) x)).
    { unfold nu, vis in *. destruct (num (abs s2) x); [done|]. done. }
    case_decide as Hroot.
    + assert (Hlow : low (abs s2) x = nu (abs s2) x) by congruence.
      apply elem_of_list_split in HxS as (S1 & S2 & ->).
      set (s2' := SccState _ _ _ _ _ _ _ _ _ _ _ _).
      assert (C2' : conc s2' (S1 ++ x :: S2) P0) by (split; apply C2).
      destruct (pop_ok x (component_count s2) S1 P0 S2 (S (length (scc_stack s2))) s2' C2')
        as (s3 & E3 & C3 & D31 & D32 & D33 & D34 & D35 & D36 & D37).
      * exact (incr_NoDup _ _ (i_Sinc _ _ _ _ _ _ _ I2)).
      * intros y Hy. by eapply S_lt.
      * rewrite (c_scc _ _ _ C2). assert (length (S1 ++ x :: S2) <= n).
        { apply NoDup_bound; [exact (incr_NoDup _ _ (i_Sinc _ _ _ _ _ _ _ I2))|]. intros y Hy. by eapply S_lt. }
        rewrite app_length in *. cbn in *. lia.
      * exists s3, P0, (2 * unvisited (dfs_pos s3) + length P0). split; [done|].
        split; [|split; [|]].
        -- exists P0, S1. split; [done|]. split.
           { intros y Hy Hn. cbn in Hn |- *. rewrite D31 in Hn. rewrite D33. by apply U2. }
           split; [|by left].
           eapply (inv_pop n fst' lst' hd' (abs s2)); [exact I2|exact Hend|exact Hlow|..].
           ++ intros y. cbn. by rewrite D31.
           ++ intros y. cbn. by rewrite D32.
           ++ intros y. cbn. by rewrite D33.
           ++ exact D36.
           ++ exact D37.
           ++ exact D34.
           ++ exact D35.
        -- rewrite D31. unfold s2'. cbn [dfs_pos]. lia.
        -- assert (V3 : forall y, vis (abs s2) y -> vis (abs s3) y).
           { intros y Hy. unfold vis in *. cbn in *. by rewrite D31. }
           intros y [Hy|Hy]; [left; by apply V3, V2|].
           apply elem_of_app in Hy as [Hy|Hy%elem_of_list_singleton]; [by right|left].
           subst. by apply V3.
    + assert (Hlow : low (abs s2) x <> nu (abs s2) x) by congruence.
      exists s2, P0, (2 * unvisited (dfs_pos s2) + length P0). split; [done|].
      split; [|split; [lia|]].
      * exists P0, St1. split; [done|]. split; [done|]. split; [|by left].
        eapply inv_leave; [exact I2|exact Hend|exact Hlow].
      * intros y [Hy|Hy]; [left; by apply V2|].
        apply elem_of_app in Hy as [Hy|Hy%elem_of_list_singleton]; [by right|left]. by subst.
  - (* an arc to a new node *)
    destruct F2 as [F2|[F2 Fn]]; [done|].
    pose proof (i_nxt _ _ _ _ _ _ _ I2 x Hx) as Hnx. pose proof (fl_ok x Hx) as Hfl.
    set (h := hd' (nxt (abs s2) x)) in *.
    assert (Hh : h < n) by (apply (hd_ok x); [done|lia]).
    assert (Eh : head !! nxt (abs s2) x = Some h) by (apply lk_default; lia).
    rewrite Eh, bind_S.
    assert (Ep : dfs_pos s2 !! h = Some (num (abs s2) h)).
    { cbn. apply lk_default. rewrite (c_pos _ _ _ C2). done. }
    rewrite Ep, Fn, bind_S.
    assert (HhS : h ∉ St1) by (intros Hc; apply (i_S _ _ _ _ _ _ _ I2) in Hc as [Hc _]; by apply Hc).
    assert (Hcap : length ((P0 ++ [x]) ++ [h]) <= n).
    { apply NoDup_bound.
      - apply NoDup_app. split; [exact (incr_NoDup _ _ (i_Pinc _ _ _ _ _ _ _ I2))|]. split.
        + intros y Hy ->%elem_of_list_singleton. apply HhS. by eapply i_P.
        + apply NoDup_singleton.
      - intros y Hy. apply elem_of_app in Hy as [Hy|Hy%elem_of_list_singleton]; [|by subst].
        eapply S_lt; [exact I2|]. by eapply i_P. }
    rewrite !app_length in Hcap. cbn [length] in Hcap.
    destruct (push_dfs_ok s2 St1 P0 x C2) as (s3 & -> & C3 & A3 & D3); [lia|]. rewrite bind_S.
    destruct (push_dfs_ok s3 St1 (P0 ++ [x]) h C3) as (s4 & E4 & C4 & A4 & D4);
      [rewrite app_length; cbn; lia|].
    assert (A : abs s4 = abs s2) by congruence.
    assert (Hu1 : 1 <= unvisited (dfs_pos s2)).
    { rewrite <- (unvisited_insert (dfs_pos s2) h 0); [lia|]. by rewrite Ep, Fn. }
    exists s4, ((P0 ++ [x]) ++ [h]), (2 * unvisited (dfs_pos s2) + length P0). split; [done|].
    split; [|split; [lia|]].
    + exists (P0 ++ [x]), St1. split; [done|]. unfold unv, fresh. rewrite A, D4, D3.
      split; [exact U2|]. split; [exact I2|]. right. exists h. split; [done|]. split.
      * split; [done|]. split; [done|]. right. by exists P0, x.
      * rewrite !app_length. cbn [length]. lia.
    + intros y [Hy|Hy].
      * left. rewrite A. by apply V2.
      * right. apply elem_of_app. by left.
Qed.

Lemma loop_ok fuel : forall s ds m, head_ok s ds m -> m < fuel ->
  exists s', dfs_loop fuel fo head s = Some s' /\ conc s' [] [] /\ unv s' /\
    ginv (abs s') [] [] /\ (forall y, seen s ds y -> vis (abs s') y).
Proof.
  induction fuel as [|fuel IH]; intros s ds m H Hm; [lia|].
  cbn [dfs_loop]. case_decide as Ht.
  - destruct H as (P & St & C & U & I & Hds).
    assert (ds = []) as -> by (apply nil_length_inv; by rewrite <- (c_dtop _ _ _ C)).
    destruct Hds as [[<- _]|(w & Hw & _)]; [|by destruct P].
    assert (St = []) as ->.
    { destruct St as [|v St]; [done|]. destruct (i_up _ _ _ _ _ _ _ I v) as (p & Hp & _); [left|].
      by apply elem_of_nil in Hp. }
    exists s. split; [done|]. split; [done|]. split; [done|]. split; [done|].
    intros y [Hy|Hy]; [done|]. by apply elem_of_nil in Hy.
  - assert (Hne : ds <> []).
    { destruct H as (P & St & C & _). intros ->. apply Ht. by rewrite (c_dtop _ _ _ C). }
    destruct (step_ok s ds m H Hne) as (s1 & ds1 & m1 & -> & H1 & Hm1 & V1). rewrite bind_S.
    destruct (IH s1 ds1 m1 H1) as (s' & E & C' & U' & I' & V'); [lia|].
    exists s'. split; [done|]. split; [done|]. split; [done|]. split; [done|].
    intros y Hy. by apply V', V1.
Qed.

Definition outer_ok (r : nat) (s : scc_state) : Prop :=
  conc s [] [] /\ unv s /\ ginv (abs s) [] [] /\ forall y, y < r -> don (abs s) y = true.

Lemma vis_don s y : ginv (abs s) [] [] -> vis (abs s) y -> don (abs s) y = true.
Proof.
  intros I Hv. destruct (don (abs s) y) eqn:E; [done|].
  assert (Hc : y ∈ @nil nat) by (by apply (i_S _ _ _ _ _ _ _ I)). by apply elem_of_nil in Hc.
Qed.

Lemma unvisited_le l : unvisited l <= length l.
Proof. apply filter_length. Qed.

Lemma root_ok r s : r < n -> outer_ok r s ->
  exists s', scc_root fo head r s = Some s' /\ outer_ok (S r) s'.
Proof.
  intros Hr (C & U & I & Hd). unfold scc_root.
  assert (Eb : in_component s !! r = Some (don (abs s) r)).
  { cbn. apply lk_default. rewrite (c_ic _ _ _ C). done. }
  rewrite Eb, bind_S. destruct (don (abs s) r) eqn:Ed.
  { exists s. split; [done|]. split; [done|]. split; [done|]. split; [done|].
    intros y Hy. destruct (decide (y = r)) as [->|]; [done|]. apply Hd. lia. }
  assert (Hn : num (abs s) r = None).
  { destruct (num (abs s) r) eqn:E; [|done]. rewrite vis_don in Ed; [done|done|]. unfold vis. by rewrite E. }
  destruct (push_dfs_ok s [] [] r C) as (s1 & -> & C1 & A1 & D1); [cbn; lia|]. rewrite bind_S.
  assert (Epos : dfs_pos s !! r = Some None).
  { rewrite (lk_default None) by (rewrite (c_pos _ _ _ C); done). by f_equal. }
  pose proof (unvisited_insert (dfs_pos s) r 0 Epos) as Hu.
  destruct (loop_ok (2 * length (dfs_pos s1) + 1) s1 [r] (2 * unvisited (dfs_pos s) - 1))
    as (s2 & -> & C2 & U2 & I2 & V2).
  { exists [], []. split; [done|]. unfold unv, fresh. rewrite A1, D1. split; [done|]. split; [done|].
    right. exists r. split; [done|]. split; [by auto|]. cbn [length]. lia. }
  { rewrite D1. pose proof (unvisited_le (dfs_pos s)). lia. }
  rewrite bind_S. rewrite (c_stop _ _ _ C2). cbn [length].
  rewrite bool_decide_true by done. cbn [chk]. rewrite bind_S.
  exists s2. split; [done|]. split; [done|]. split; [done|]. split; [done|].
  intros y Hy. apply vis_don; [done|]. apply V2. destruct (decide (y = r)) as [->|].
  - right. by apply elem_of_list_singleton.
  - left. rewrite A1. apply (i_done _ _ _ _ _ _ _ I). apply Hd. lia.
Qed.

Theorem scc_correct : exists co cc, compute_scc fo head = Some (co, cc) /\ scc_spec n fo head co cc.
Proof.
  unfold compute_scc. rewrite (csr_len _ _ _ Hcsr). cbn [Nat.sub]. rewrite Nat.sub_0_r.
  set (s0 := SccState _ _ _ _ _ _ _ _ _ _ _ _).
  assert (Hr : forall (A : Type) (v : A) y, default v (replicate n v !! y) = v).
  { intros A v y. destruct (replicate n v !! y) eqn:E; [|done].
    apply lookup_replicate in E as [-> _]. done. }
  destruct (for_range_inv outer_ok (scc_root fo head) 0 n s0) as (s & -> & C & U & I & Hd).
  - lia.
  - split; [|split; [|split]].
    + split; cbn [s0 dfs_stack dfs_top scc_stack scc_top in_scc_stack next_out dfs_pos low_link in_component component_of];
        rewrite ?replicate_length; try done; try apply Hcsr.
      intros x Hx. rewrite lookup_replicate_2 by done. rewrite bool_decide_false; [done|].
      by intros Hc%elem_of_nil.
    + done.
    + apply inv_init; [apply Hfl'|..]; try done.
      * intros x. cbn. apply Hr.
      * intros x. cbn. apply Hr.
    + lia.
  - intros r s' Hr' Hs. apply root_ok; [lia|done].
  - rewrite bind_S. eexists _, _. split; [done|].
    assert (Ec : forall x c, component_of s !! x = Some c -> x < n /\ cmp (abs s) x = c).
    { intros x c E. split; [rewrite <- (c_co _ _ _ C); by eapply lookup_lt_Some|]. cbn. by rewrite E. }
    split.
    + apply C.
    + intros x y c d Hx Hy. apply Ec in Hx as [Hx <-]. apply Ec in Hy as [Hy <-].
      rewrite !reach_iff. apply (i_cmp _ _ _ _ _ _ _ I); by apply Hd.
    + intros c. split.
      * intros (x & Hx). apply Ec in Hx as [Hx <-]. apply (i_cmp_lt _ _ _ _ _ _ _ I). by apply Hd.
      * intros Hc. destruct (i_all _ _ _ _ _ _ _ I c Hc) as (x & Hx & Ex). exists x.
        assert (x < n) by (eapply vis_lt; [exact I|]; by apply (i_done _ _ _ _ _ _ _ I)).
        rewrite (lk_default 0) by (rewrite (c_co _ _ _ C); done). by f_equal.
    + intros x y c d He Hx Hy. apply Ec in Hx as [Hx <-]. apply Ec in Hy as [Hy <-].
      apply (i_topo _ _ _ _ _ _ _ I); [by apply Hd|]. by apply edge_iff.
Qed.

End proofs.
