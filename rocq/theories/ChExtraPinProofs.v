(** Extra weights of the paths found by pinned queries. *)
From Verif Require Import Base UtilSpec GraphSpec IdQueueModel IdQueueSpec IdQueueProofs IdSetModel IdSetSpec IdSetProofs ChCleanSpec ChBuildModel ChSpec
  ChQueryModel ChSearchProofs ChRunProofs ChUnpackProofs ChPinProofs ChSweepProofs ChExtraModel ChExtraSpec ChExtraArcProofs ChExtraRunProofs WalkSpec.
Ltac Zify.zify_post_hook ::= idtac.

Section pin.
Context {W : Type} (dflt : W) (lnk : W -> W -> W) (get : bool -> nat -> option W).
Context (n : nat) (gf gb : chside) (R : nat -> nat -> N -> Prop) (ss : list (nat * N)) (S F : gset nat) (s0 s : cside) (sel : list nat).
Hypothesis HC : covers n gf gb R.
Hypothesis Hg : side_ok n gf.
Hypothesis Ho : side_ok n gb.
Hypothesis Hs0 : sbase n gf ss S ∅ s0.
Hypothesis Hexp : forall x, x ∈ S -> expanded gf S ∅ s0 x.
Hypothesis Hsw : swept n gb S s0 sel F s.
Hypothesis Hlt : forall x, x ∈ sel -> x < n.
Hypothesis Hget_t : forall a x y v, sarc gf a x y v -> exists u, get true a = Some u.
Hypothesis Hget_f : forall a x y v, sarc gb a x y v -> exists u, get false a = Some u.

(** ** Predecessors *)
(** Nodes with a correct distance. *)
Definition good (x : nat) (t : N) : Prop :=
  (x ∈ F /\ x ∈ S /\ s_dist s0 !! x = Some t /\ tight R ss x t) \/ (x ∉ F /\ x ∈ sel /\ s_dist s !! x = Some t /\ (t < inf_weight)%N).
Definition step (x : nat) (t : N) (y : nat) (ty : N) (b : bool) (a : nat) : Prop :=
  good x t /\ good y ty /\ (t < inf_weight)%N /\ s_parc s !! x = Some (Some a) /\ exists v, t = (ty + v)%N /\
  if b then x ∈ F /\ y ∈ F /\ s_pnode s !! x = Some (Some y) /\ sarc gf a y x v /\ y < x
  else x ∉ F /\ sarc gb a x y v /\ x < y.
Definition source (x : nat) (t : N) : Prop := good x t /\ x ∈ F /\ s_pnode s !! x = Some None /\ (x, t) ∈ ss.

Lemma good_fun x t t' : good x t -> good x t' -> t = t'.
Proof. intros [(? & ? & ? & _)|(? & ? & ? & _)] [(? & ? & ? & _)|(? & ? & ? & _)]; congruence. Qed.
Lemma good_lt x t : good x t -> x < n.
Proof. intros [(_ & Hx & _)|(_ & Hx & _)]; [|by apply Hlt]. eapply (sb_lt _ _ _ _ _ _ _ Hs0). by apply in_S. Qed.
Lemma sel_good x t : x ∈ sel -> s_dist s !! x = Some t -> x ∈ F \/ (t < inf_weight)%N -> good x t.
Proof.
  intros Hx Ht Hor. destruct (decide (x ∈ F)) as [HF|HF]; [left|right; destruct Hor; done].
  destruct (sw_done _ _ _ _ _ _ _ Hsw x Hx) as (t' & Ht' & _ & [(_ & Hd & _)|[(? & _)|(? & _)]] & _); [|done|done].
  assert (t' = t) as -> by congruence. split; [done|]. split; [by apply (sw_F _ _ _ _ _ _ _ Hsw)|]. split; [done|].
  intros z dz L Hz HR. by eapply (sweep_complete n gf gb R ss S F s0 s sel).
Qed.
Lemma good_step x t : good x t -> source x t \/ exists y ty b a, step x t y ty b a.
Proof.
  intros Hgood. pose proof Hgood as [(HF & HS & Hd & Hti)|(HF & Hsel & Hd & Hinf)].
  - pose proof (sw_pn _ _ _ _ _ _ _ Hsw) as Hpn.
    destruct (sb_pred _ _ _ _ _ _ Hs0 x t) as [[E Hs]|(y & a & v & dy & E & Ea & Ha & Hy & Hdy & ->)]; [by apply in_S|done| |].
    { left. split; [done|]. split; [done|]. by rewrite Hpn. }
    right. exists y, dy, true, a. assert ((dy + v < inf_weight)%N) as Hinf by (apply (sb_inf _ _ _ _ _ _ Hs0 x y); [by apply in_S|done|done]).
    assert (tight R ss y dy) as Hty.
    { intros z dz L Hz HR. pose proof (cv_fwd _ _ _ _ HC _ _ _ _ Ha) as HRa.
      pose proof (Hti z dz (L + v)%N Hz (cv_trans _ _ _ _ HC _ _ _ _ _ HR HRa)). lia. }
    assert (y ∈ F) as HyF by (by eapply (tight_flag n gf gb R ss S F s0 s sel)).
    split; [done|]. split; [by left|]. split; [done|]. split.
    + rewrite <- Ea. destruct (decide (x ∈ sel)) as [Hx|Hx]; [|by apply (sw_rest _ _ _ _ _ _ _ Hsw)].
      destruct (sw_done _ _ _ _ _ _ _ Hsw x Hx) as (t' & Ht' & _ & [(_ & Hd' & Hp)|[(? & _)|(? & _)]] & _); [|done|done].
      apply Hp. congruence.
    + exists v. split; [done|]. split; [done|]. split; [done|]. rewrite Hpn. split; [done|]. split; [done|]. by eapply (so_up _ _ Hg).
  - right. destruct (sw_done _ _ _ _ _ _ _ Hsw x Hsel) as (t' & Ht' & _ & Hat & _). assert (t' = t) as -> by congruence.
    destruct Hat as [(? & _)|[(_ & _ & _ & a & y & v & ty & Hpa & Ha & Hy & Hty & ->)|(_ & _ & -> & _)]]; [done| |lia].
    exists y, ty, false, a. split; [done|]. split; [apply sel_good; [done|done|right; lia]|]. split; [done|]. split; [done|].
    exists v. split; [done|]. split; [done|]. split; [done|]. by eapply (so_up _ _ Ho).
Qed.
Lemma step_get x t y ty b a : step x t y ty b a -> exists u, get b a = Some u.
Proof. intros (_ & _ & _ & _ & v & _ & H). destruct b; [destruct H as (_ & _ & _ & ? & _); eauto|destruct H as (_ & ? & _); eauto]. Qed.

(** A path of arcs of the hierarchy from a source, its length, and its value unless it is empty. *)
Inductive xchain : nat -> N -> list (bool * nat) -> option W -> Prop :=
  | xc_src x t : source x t -> xchain x t [] None
  | xc_step x t y ty b a u l o : step x t y ty b a -> get b a = Some u -> xchain y ty l o ->
      xchain x t (l ++ [(b, a)]) (Some (match o with None => u | Some r => lnk r u end)).

(** ** The stack *)
Definition xvals (H : gset nat) (tmp : list W) : Prop :=
  forall x, x ∈ H -> exists t l r, good x t /\ xchain x t l (Some r) /\ tmp !! x = Some r.
Definition xinv (H : gset nat) (xs : list nat) (k : nat) (st : xstate W) : Prop :=
  fref n (x_has st) H /\ xvals H (x_tmp st) /\ n <= length (x_tmp st) /\ length (x_stack st) = n /\
  (forall i x, xs !! i = Some x -> x_stack st !! i = Some (Some x)) /\ x_size st = length xs /\ x_fcount st = k.

(** Every node of the list is followed by its predecessor, the last one by [z]. *)
Inductive lk : list nat -> nat -> Prop :=
  | lk_nil z : lk [] z
  | lk_snoc xs x t z tz b a : step x t z tz b a -> lk xs x -> lk (xs ++ [x]) z.

Lemma x_push_ok H xs k st fwd x :
  xinv H xs k st -> NoDup (xs ++ [x]) -> Forall (fun y => y < n) (xs ++ [x]) ->
  exists st', x_push fwd x st = Some st' /\ xinv H (xs ++ [x]) (if fwd then Datatypes.S k else k) st'.
Proof.
  intros (H1 & H2 & H3 & H4 & H5 & H6 & H7) Hnd Hlt'. unfold x_push.
  assert (length (xs ++ [x]) <= n) as Hlen. { apply NoDup_lt_length; [done|]. by apply Forall_forall. }
  rewrite app_length in Hlen. cbn in Hlen.
  rewrite (wr_Some (x_stack st)) by lia. rewrite bind_S. eexists. split; [done|]. unfold xinv. cbn.
  split; [done|]. split; [done|]. split; [done|]. split; [by rewrite insert_length|]. split; [|split].
  - intros i y Hi. rewrite H6. apply lookup_app_Some in Hi as [Hi|[Hl Hi]].
    + rewrite list_lookup_insert_ne by (apply lookup_lt_Some in Hi; lia). by apply H5.
    + assert (i = length xs) as ->. { apply lookup_lt_Some in Hi. cbn in Hi. lia. }
      rewrite Nat.sub_diag in Hi. cbn in Hi. injection Hi as <-. apply list_lookup_insert. lia.
  - rewrite app_length, H6. cbn. lia.
  - destruct fwd; congruence.
Qed.
Lemma snoc_NoDup (xs : list nat) x : NoDup xs -> x ∉ xs -> NoDup (xs ++ [x]).
Proof. intros H Hx. apply NoDup_app. split; [done|]. split; [|apply NoDup_singleton]. intros y Hy ->%elem_of_list_singleton. done. Qed.
Lemma snoc_Forall (Q : nat -> Prop) (xs : list nat) x : Forall Q xs -> Q x -> Forall Q (xs ++ [x]).
Proof. intros. apply Forall_app. split; [done|]. by constructor. Qed.

Lemma push_down_ok H : forall fuel x t xs st,
  n <= fuel + x -> good x t -> x ∉ H -> xinv H xs 0 st -> lk xs x -> NoDup xs -> Forall (fun y => y ∉ F /\ y ∉ H /\ y < x) xs ->
  exists xs' st' o, push_down gb s fuel x st = Some (st', o) /\ xinv H xs' 0 st' /\ NoDup xs' /\ Forall (fun y => y ∉ F /\ y ∉ H /\ y < n) xs' /\
    match o with None => exists z, z ∈ H /\ lk xs' z | Some y => exists ty, good y ty /\ y ∈ F /\ y ∉ H /\ lk xs' y end /\
    (x ∈ xs' \/ xs' = xs /\ o = Some x) /\ forall y, y ∈ xs -> y ∈ xs'.
Proof.
  induction fuel as [|fuel IH]; intros x t xs st Hfuel Hx HxH Hst Hlk Hnd HF; pose proof (good_lt _ _ Hx) as Hxn; [lia|].
  assert (Forall (fun y => y ∉ F /\ y ∉ H /\ y < n) xs) as HFn. { eapply Forall_impl; [exact HF|]. cbn. intros y (? & ? & ?). split_and!; [done|done|lia]. }
  cbn [push_down]. rewrite (is_set_spec _ _ _ _ (sw_f _ _ _ _ _ _ _ Hsw)) by done. rewrite bind_S. case_bool_decide as HxF.
  { exists xs, st, (Some x). do 4 (split; [done|]). split; [by exists t|]. split; [by right|done]. }
  assert (NoDup (xs ++ [x])) as Hnd'.
  { apply snoc_NoDup; [done|]. intros Hin. rewrite Forall_forall in HF. destruct (HF x Hin) as (_ & _ & ?). lia. }
  assert (Forall (fun y => y ∉ F /\ y ∉ H /\ y < n) (xs ++ [x])) as HF' by (by apply snoc_Forall).
  destruct (x_push_ok H xs 0 st false x Hst Hnd') as (st1 & -> & Hst1). { eapply Forall_impl; [exact HF'|]. cbn. by intros y (_ & _ & ?). }
  rewrite bind_S. cbn iota in Hst1.
  destruct (good_step x t Hx) as [(_ & ? & _)|(y & ty & b & a & Hstep)]; [done|]. pose proof Hstep as (_ & Hy & Hinf & Hpa & v & -> & Hb).
  destruct b; [by destruct Hb|]. destruct Hb as (_ & Ha & Hxy). pose proof Ha as (_ & Hh & _).
  rewrite Hpa, !bind_S, Hh, bind_S. rewrite (bool_decide_eq_true_2 (x < y)) by done. cbn [chk]. rewrite bind_S.
  pose proof (good_lt _ _ Hy) as Hyn.
  rewrite (is_set_spec _ _ _ _ (proj1 Hst1)) by done. rewrite bind_S.
  assert (lk (xs ++ [x]) y) as Hlk' by (by eapply lk_snoc).
  case_bool_decide as HyH.
  { exists (xs ++ [x]), st1, None. do 4 (split; [done|]). split; [by exists y|]. split; [left|intros z Hz]; apply elem_of_app; [right; by apply elem_of_list_singleton|by left]. }
  destruct (IH y ty (xs ++ [x]) st1) as (xs' & st' & o & E & A1 & A2 & A3 & A4 & _ & A5); [lia|done|done|done|done|done| |].
  { apply snoc_Forall; [|done]. eapply Forall_impl; [exact HF|]. cbn. intros z (? & ? & ?). split_and!; [done|done|lia]. }
  exists xs', st', o. do 5 (split; [done|]). split; [left|intros z Hz]; apply A5, elem_of_app; [right; by apply elem_of_list_singleton|by left].
Qed.

Lemma push_up_ok H dn : Forall (fun y => y ∉ F /\ y ∉ H /\ y < n) dn -> forall fuel x t up st,
  x < fuel -> good x t -> x ∈ F -> x ∉ H -> xinv H (dn ++ up) (length up) st -> lk (dn ++ up) x -> NoDup (dn ++ up) -> Forall (fun y => y ∈ F /\ y ∉ H /\ x < y /\ y < n) up ->
  exists up' st' z, push_up dflt s fuel x st = Some st' /\ xinv H (dn ++ up') (length up') st' /\ NoDup (dn ++ up') /\ Forall (fun y => y ∈ F /\ y ∉ H /\ y < n) up' /\
    lk (dn ++ up') z /\ (z ∈ H \/ exists tz, source z tz /\ x_tmp st' !! z = Some dflt) /\
    (x ∈ up' \/ up' = up /\ z = x) /\ forall y, y ∈ up -> y ∈ up'.
Proof.
  intros Hdn. induction fuel as [|fuel IH]; intros x t up st Hfuel Hx HxF HxH Hst Hlk Hnd HF; pose proof (good_lt _ _ Hx) as Hxn; [lia|].
  assert (Forall (fun y => y ∈ F /\ y ∉ H /\ y < n) up) as HFn. { eapply Forall_impl; [exact HF|]. cbn. by intros y (? & ? & ? & ?). }
  cbn [push_up]. destruct (good_step x t Hx) as [Hsrc|(y & ty & b & a & Hstep)].
  { pose proof Hsrc as (_ & _ & E & _). rewrite E, bind_S. destruct Hst as (H1 & H2 & H3 & H4).
    rewrite (wr_Some (x_tmp st)) by lia. rewrite bind_S. eexists up, _, x. split; [done|]. split; [|split; [done|split; [done|split; [done|]]]].
    - split; [done|]. cbn. split; [|split; [by rewrite insert_length|done]].
      intros z Hz. rewrite list_lookup_insert_ne by (by intros ->). by apply H2.
    - split; [|split; [by right|done]]. right. exists t. split; [done|]. cbn. apply list_lookup_insert. lia. }
  pose proof Hstep as (_ & Hy & Hinf & Hpa & v & -> & Hb). destruct b; [|by destruct Hb]. destruct Hb as (_ & HyF & Hpn & Ha & Hyx).
  pose proof (good_lt _ _ Hy) as Hyn.
  rewrite Hpn, bind_S. rewrite (is_set_spec _ _ _ _ (sw_f _ _ _ _ _ _ _ Hsw)) by done. rewrite bind_S.
  rewrite (bool_decide_eq_true_2 (x ∈ F)) by done. cbn [chk]. rewrite bind_S.
  assert (NoDup ((dn ++ up) ++ [x])) as Hnd'.
  { apply snoc_NoDup; [done|]. intros [Hin|Hin]%elem_of_app.
    - rewrite Forall_forall in Hdn. by destruct (Hdn x Hin).
    - rewrite Forall_forall in HF. destruct (HF x Hin) as (_ & _ & ? & _). lia. }
  destruct (x_push_ok H (dn ++ up) (length up) st true x Hst Hnd') as (st1 & -> & Hst1).
  { apply snoc_Forall; [|done]. apply Forall_app. split; [eapply Forall_impl; [exact Hdn|]; by intros z (_ & _ & ?)|eapply Forall_impl; [exact HFn|]; by intros z (_ & _ & ?)]. }
  rewrite bind_S. rewrite (bool_decide_eq_true_2 (y < x)) by done. cbn [chk]. rewrite bind_S.
  rewrite (is_set_spec _ _ _ _ (proj1 Hst1)) by done. rewrite bind_S.
  assert (lk ((dn ++ up) ++ [x]) y) as Hlk' by (by eapply lk_snoc).
  rewrite <- app_assoc in Hlk', Hst1, Hnd'. replace (Datatypes.S (length up)) with (length (up ++ [x])) in Hst1 by (rewrite app_length; cbn; lia).
  case_bool_decide as HyH.
  { exists (up ++ [x]), st1, y. split; [done|]. split; [done|]. split; [done|]. split; [by apply snoc_Forall|]. split; [done|]. split; [by left|].
    split; [left|intros z Hz]; apply elem_of_app; [right; by apply elem_of_list_singleton|by left]. }
  destruct (IH y ty (up ++ [x]) st1) as (up' & st' & z & E & A1 & A2 & A3 & A4 & A5 & _ & A6); [lia|done|done|done|done|done|done| |].
  { apply snoc_Forall; [|done]. eapply Forall_impl; [exact HF|]. cbn. intros z (? & ? & ? & ?). split_and!; [done|done|lia|done]. }
  exists up', st', z. do 6 (split; [done|]). split; [left|intros y' Hy']; apply A6, elem_of_app; [right; by apply elem_of_list_singleton|by left].
Qed.

(** ** Unwinding *)
Lemma x_step_ok H xs k st x t z tz b a u :
  xinv H xs k st -> x ∉ H -> step x t z tz b a -> get b a = Some u -> (z ∈ H \/ source z tz) ->
  exists st', x_step lnk x z u st = Some st' /\ xinv ({[x]} ∪ H) xs k st'.
Proof.
  intros (H1 & H2 & H3 & H4) HxH Hstep Hu Hz. pose proof Hstep as (Hx & Hgz & _). pose proof (good_lt _ _ Hx) as Hxn.
  unfold x_step. rewrite (is_set_spec _ _ _ _ H1) by (by eapply good_lt). rewrite bind_S.
  assert (exists v l, (if bool_decide (z ∈ H) then r ← x_tmp st !! z; Some (lnk r u) else Some u) = Some v /\ xchain x t l (Some v)) as (v & l & -> & Hv).
  { case_bool_decide as HzH.
    - destruct (H2 z HzH) as (t' & l & r & Hg' & Hc & E). assert (t' = tz) as -> by (by eapply good_fun).
      rewrite E, bind_S. eexists _, _. split; [done|]. by eapply xc_step with (o := Some r).
    - destruct Hz as [?|Hz]; [done|]. eexists _, _. split; [done|]. eapply xc_step with (o := None); [done|done|]. by apply xc_src. }
  rewrite bind_S. rewrite (wr_Some (x_tmp st)) by lia. rewrite bind_S.
  destruct (f_step_refines n (x_has st) H (FSet x) H1 Hxn) as (f' & Ef & Hf'). cbn [f_step f_spec] in Ef, Hf'. rewrite Ef, bind_S.
  eexists. split; [done|]. split; [done|]. cbn. split; [|split; [by rewrite insert_length|done]].
  intros y Hy. destruct (decide (y = x)) as [->|Hne].
  - exists t, l, v. split; [done|]. split; [done|]. apply list_lookup_insert. lia.
  - rewrite list_lookup_insert_ne by done. apply H2. set_solver.
Qed.

Lemma xinv_pop H xs x k st k' : xinv H (xs ++ [x]) k st -> xinv H xs k' (mkXstate (x_has st) (x_tmp st) (x_stack st) (length xs) k').
Proof.
  intros (H1 & H2 & H3 & H4 & H5 & H6 & H7). split; [done|]. split; [done|]. split; [done|]. split; [done|]. split; [|done].
  intros i y Hi. apply H5. by apply lookup_app_l_Some.
Qed.
Lemma lk_snoc_inv xs x z : lk (xs ++ [x]) z -> exists t tz b a, step x t z tz b a /\ lk xs x.
Proof.
  intros Hl. inversion Hl as [? E|xs' x' t z' tz b a Hs Hr E1]; [by destruct xs|]. apply app_inj_tail in E1 as [-> ->]. eauto 10.
Qed.

Definition known (H : gset nat) (z : nat) : Prop := z ∈ H \/ exists tz, source z tz.
Lemma known_src H z x t tz b a : known H z -> step x t z tz b a -> z ∈ H \/ source z tz.
Proof.
  intros [?|(tz' & Hz)] (_ & Hg' & _); [by left|right]. assert (tz' = tz) as <- by (eapply good_fun; [apply Hz|done]). done.
Qed.

Lemma unwind_dn : forall dn H z st,
  xinv H dn 0 st -> lk dn z -> NoDup dn -> Forall (fun y => y ∉ F /\ y ∉ H /\ y < n) dn -> known H z ->
  exists H' st', unwind lnk get gb s (length dn) st = Some st' /\ xinv H' [] 0 st' /\ (forall x, x ∈ H' <-> x ∈ H \/ x ∈ dn) /\ forall y, y ∉ dn -> x_tmp st' !! y = x_tmp st !! y.
Proof.
  induction dn as [|x dn IH] using rev_ind; intros H z st Hst Hlk Hnd HF Hz.
  { exists H, st. split; [done|]. split; [done|]. split; [|done]. intros x. split; [by left|]. intros [?|Hx%elem_of_nil]; done. }
  rewrite app_length. cbn [length]. rewrite Nat.add_1_r. cbn [unwind]. pose proof Hst as (H1 & H2 & H3 & H4 & H5 & H6 & H7).
  rewrite (H5 (length dn) x) by (rewrite lookup_app_r by lia; by rewrite Nat.sub_diag). rewrite !bind_S. rewrite H7.
  apply Forall_app in HF as [HF Hx]. apply Forall_cons in Hx as ((HxF & HxH & Hxn) & _).
  apply lk_snoc_inv in Hlk as (t & tz & b & a & Hstep & Hlk). destruct (step_get _ _ _ _ _ _ Hstep) as [u Hu].
  pose proof (known_src _ _ _ _ _ _ _ Hz Hstep) as Hz'.
  pose proof (xinv_pop _ _ _ _ _ 0 Hst) as Hst0. pose proof Hst0 as (Hh & _).
  destruct (x_step_ok H dn 0 _ x t z tz b a u Hst0 HxH Hstep Hu Hz') as (st1 & E & Hst1).
  pose proof Hstep as (_ & _ & _ & Hpa & v & _ & Hb). destruct b; [by destruct Hb|]. destruct Hb as (_ & Ha & _). pose proof Ha as (_ & Hhd & _).
  unfold backward_step. rewrite (is_set_spec _ _ _ _ Hh) by done. rewrite bind_S. rewrite (bool_decide_eq_false_2 (x ∈ H)) by done. cbn [negb chk]. rewrite bind_S.
  rewrite (is_set_spec _ _ _ _ (sw_f _ _ _ _ _ _ _ Hsw)) by done. rewrite bind_S. rewrite (bool_decide_eq_false_2 (x ∈ F)) by done. cbn [negb chk]. rewrite bind_S.
  rewrite Hpa, !bind_S, Hhd, bind_S, Hu, bind_S, E, bind_S.
  apply NoDup_app in Hnd as (Hnd & Hdj & _).
  destruct (IH ({[x]} ∪ H) x st1) as (H' & st' & E' & Hst' & HH' & Htmp); [done|done|done| |left; set_solver|].
  { rewrite Forall_forall in HF |- *. intros y Hy. destruct (HF y Hy) as (? & ? & ?). split; [done|]. split; [|done].
    intros [->%elem_of_singleton|?]%elem_of_union; [|done]. apply (Hdj x Hy). by apply elem_of_list_singleton. }
  exists H', st'. split; [done|]. split; [done|]. split.
  - intros y. rewrite HH', elem_of_union, elem_of_singleton, elem_of_app, elem_of_list_singleton. tauto.
  - intros y Hy. rewrite elem_of_app, elem_of_list_singleton in Hy. rewrite Htmp by tauto.
    clear - E Hy. unfold x_step in E. revert E. cbn. destruct (is_set _ _) as [h|]; [|done]. rewrite bind_S.
    destruct (if h then _ else _) as [v|]; [|done]. rewrite bind_S. unfold wr. destruct (decide _); [|done]. rewrite bind_S.
    destruct (set_flag _ _); [|done]. rewrite bind_S. intros [= <-]. cbn. apply list_lookup_insert_ne. intros ->. tauto.
Qed.

Lemma unwind_ok : forall up dn H z st,
  xinv H (dn ++ up) (length up) st -> lk (dn ++ up) z -> NoDup (dn ++ up) -> Forall (fun y => y ∉ F /\ y ∉ H /\ y < n) dn -> Forall (fun y => y ∈ F /\ y ∉ H /\ y < n) up -> known H z ->
  exists H' st', unwind lnk get gb s (length (dn ++ up)) st = Some st' /\ xinv H' [] 0 st' /\ (forall x, x ∈ H' <-> x ∈ H \/ x ∈ dn ++ up) /\ forall y, y ∉ dn ++ up -> x_tmp st' !! y = x_tmp st !! y.
Proof.
  induction up as [|x up IH] using rev_ind; intros dn H z st Hst Hlk Hnd HFd HF Hz.
  { rewrite app_nil_r in *. cbn [length] in Hst. by eapply unwind_dn. }
  rewrite app_assoc in *. rewrite app_length. rewrite app_length in Hst. cbn [length] in *. rewrite Nat.add_1_r in *. cbn [unwind]. pose proof Hst as (H1 & H2 & H3 & H4 & H5 & H6 & H7).
  rewrite (H5 (length (dn ++ up)) x) by (rewrite lookup_app_r by lia; by rewrite Nat.sub_diag). rewrite !bind_S. rewrite H7.
  apply Forall_app in HF as [HF Hx]. apply Forall_cons in Hx as ((HxF & HxH & Hxn) & _).
  apply lk_snoc_inv in Hlk as (t & tz & b & a & Hstep & Hlk). destruct (step_get _ _ _ _ _ _ Hstep) as [u Hu].
  pose proof (known_src _ _ _ _ _ _ _ Hz Hstep) as Hz'.
  pose proof (xinv_pop _ _ _ _ _ (length up) Hst) as Hst0. pose proof Hst0 as (Hh & _).
  destruct (x_step_ok H (dn ++ up) (length up) _ x t z tz b a u Hst0 HxH Hstep Hu Hz') as (st1 & E & Hst1).
  pose proof Hstep as (_ & _ & _ & Hpa & v & _ & Hb). destruct b; [|by destruct Hb]. destruct Hb as (_ & _ & Hpn & _).
  unfold forward_step. rewrite (is_set_spec _ _ _ _ Hh) by done. rewrite bind_S. rewrite (bool_decide_eq_false_2 (x ∈ H)) by done. cbn [negb chk]. rewrite bind_S.
  rewrite (is_set_spec _ _ _ _ (sw_f _ _ _ _ _ _ _ Hsw)) by done. rewrite bind_S. rewrite (bool_decide_eq_true_2 (x ∈ F)) by done. cbn [chk]. rewrite bind_S.
  rewrite Hpa, !bind_S, Hpn, !bind_S, Hu, bind_S, E, bind_S.
  apply NoDup_app in Hnd as (Hnd & Hdj & _).
  assert (forall y, y ∈ dn ++ up -> y ∉ H -> y ∉ {[x]} ∪ H) as Hnew.
  { intros y Hy ?. intros [->%elem_of_singleton|?]%elem_of_union; [|done]. apply (Hdj x Hy). by apply elem_of_list_singleton. }
  destruct (IH dn ({[x]} ∪ H) x st1) as (H' & st' & E' & Hst' & HH' & Htmp); [done|done|done| | |left; set_solver|].
  { rewrite Forall_forall in HFd |- *. intros y Hy. destruct (HFd y Hy) as (? & ? & ?). split; [done|]. split; [|done]. apply Hnew; [|done]. apply elem_of_app. by left. }
  { rewrite Forall_forall in HF |- *. intros y Hy. destruct (HF y Hy) as (? & ? & ?). split; [done|]. split; [|done]. apply Hnew; [|done]. apply elem_of_app. by right. }
  exists H', st'. split; [done|]. split; [done|]. split.
  - intros y. rewrite HH', elem_of_union, elem_of_singleton, (elem_of_app _ [x]), elem_of_list_singleton. tauto.
  - intros y Hy. rewrite (elem_of_app _ [x]), elem_of_list_singleton in Hy. rewrite Htmp by tauto.
    clear - E Hy. unfold x_step in E. revert E. cbn. destruct (is_set _ _) as [h|]; [|done]. rewrite bind_S.
    destruct (if h then _ else _) as [v|]; [|done]. rewrite bind_S. unfold wr. destruct (decide _); [|done]. rewrite bind_S.
    destruct (set_flag _ _); [|done]. rewrite bind_S. intros [= <-]. cbn. apply list_lookup_insert_ne. intros ->. tauto.
Qed.

(** ** Extracting *)
(** The extra weight of node [x] at distance [t]. *)
Definition extracted (x : nat) (t : N) (v : W) : Prop := (exists l o, xchain x t l o /\ v = default dflt o).

Lemma expand_ok' H x t st : good x t -> xinv H [] 0 st ->
  exists H' st' v, expand_distances dflt lnk get n gb s x st = Some st' /\ xinv H' [] 0 st' /\ x_tmp st' !! x = Some v /\ extracted x t v.
Proof.
  intros Hx Hst. pose proof (good_lt _ _ Hx) as Hxn. unfold expand_distances. rewrite (is_set_spec _ _ _ _ (proj1 Hst)) by done. rewrite bind_S.
  case_bool_decide as HxH.
  { destruct (proj1 (proj2 Hst) x HxH) as (t' & l & r & Hg' & Hc & E). assert (t' = t) as -> by (by eapply good_fun).
    exists H, st, r. do 3 (split; [done|]). by exists l, (Some r). }
  unfold push_non_reached. rewrite (is_set_spec _ _ _ _ (proj1 Hst)) by done. rewrite bind_S. rewrite (bool_decide_eq_false_2 (x ∈ H)) by done.
  cbn [negb chk]. rewrite bind_S.
  assert (exists dn up st1 z, ('(st, o) ← push_down gb s n x st; match o with None => Some st | Some y => push_up dflt s n y st end) = Some st1 /\
    xinv H (dn ++ up) (length up) st1 /\ NoDup (dn ++ up) /\ Forall (fun y => y ∉ F /\ y ∉ H /\ y < n) dn /\ Forall (fun y => y ∈ F /\ y ∉ H /\ y < n) up /\
    lk (dn ++ up) z /\ (z ∈ H \/ exists tz, source z tz /\ x_tmp st1 !! z = Some dflt) /\ (x ∈ dn ++ up \/ dn ++ up = [] /\ z = x)) as
    (dn & up & st1 & z & E & Hst1 & Hnd & HFd & HFu & Hlk & Hz & Hin).
  { destruct (push_down_ok H n x t [] st) as (dn & st1 & o & -> & A1 & A2 & A3 & A4 & A5 & _); [lia|done|done|done|constructor|constructor|constructor|].
    rewrite bind_S. cbv beta iota. destruct o as [y|].
    - destruct A4 as (ty & Hy & HyF & HyH & Hlk).
      destruct (push_up_ok H dn A3 n y ty [] st1) as (up & st2 & z & -> & B1 & B2 & B3 & B4 & B5 & B6 & _);
        [by eapply good_lt|done|done|done|by rewrite app_nil_r|by rewrite app_nil_r|by rewrite app_nil_r|constructor|].
      exists dn, up, st2, z. do 7 (split; [done|]). rewrite elem_of_app. destruct A5 as [?|[-> [= ->]]]; [left; by left|].
      destruct B6 as [?|[-> ->]]; [left; by right|by right].
    - destruct A4 as (z & Hz & Hlk). destruct A5 as [A5|[_ ?]]; [|done]. exists dn, [], st1, z. rewrite app_nil_r. split; [done|]. split; [done|].
      split; [done|]. split; [done|]. split; [constructor|]. split; [done|]. split; by left. }
  rewrite E, bind_S. destruct (unwind_ok up dn H z st1 Hst1 Hlk Hnd HFd HFu) as (H' & st' & E' & Hst' & HH' & Htmp).
  { destruct Hz as [?|(tz & ? & _)]; [by left|right; eauto]. }
  destruct Hst1 as (_ & _ & _ & _ & _ & Hsz & _). rewrite Hsz, E'.
  destruct Hin as [Hin|[Hnil ->]].
  - destruct (proj1 (proj2 Hst') x) as (t' & l & r & Hg' & Hc & Er); [apply HH'; by right|]. assert (t' = t) as -> by (by eapply good_fun).
    exists H', st', r. do 3 (split; [done|]). by exists l, (Some r).
  - destruct Hz as [?|(tz & Hsrc & Ez)]; [done|]. assert (tz = t) as -> by (eapply good_fun; [apply Hsrc|done]).
    exists H', st', dflt. split; [done|]. split; [done|]. split; [rewrite Htmp by (rewrite Hnil; apply not_elem_of_nil); done|].
    exists [], None. split; [by apply xc_src|done].
Qed.

Lemma step_inf x t l o : xchain x t l o -> t = inf_weight -> o = None.
Proof. intros [|]; [done|]. intros ->. destruct H as (_ & _ & ? & _). lia. Qed.

Lemma extract_extra_ok H x t st : x ∈ sel -> s_dist s !! x = Some t -> xinv H [] 0 st ->
  exists H' st' v, extract_extra dflt lnk get n gb s x st = Some (v, st') /\ xinv H' [] 0 st' /\
    ((t < inf_weight)%N /\ extracted x t v \/ t = inf_weight /\ v = dflt).
Proof.
  intros Hx Ht Hst. pose proof (Hlt x Hx) as Hxn. unfold extract_extra.
  rewrite (is_set_spec _ _ _ _ (sw_f _ _ _ _ _ _ _ Hsw)) by done. rewrite bind_S.
  destruct (sw_done _ _ _ _ _ _ _ Hsw x Hx) as (t' & Ht' & Htle & Hat & _). assert (t' = t) as -> by congruence.
  assert (good x t -> exists H' st' v, ('(v, st) ← (st ← expand_distances dflt lnk get n gb s x st; v ← x_tmp st !! x; Some (v, st)); Some (v, st)) = Some (v, st') /\ xinv H' [] 0 st' /\
    ((t < inf_weight)%N /\ extracted x t v \/ t = inf_weight /\ v = dflt)) as Hgo.
  { intros Hgd. destruct (expand_ok' H x t st Hgd Hst) as (H' & st' & v & -> & Hst' & Ev & Hv). rewrite bind_S, Ev, !bind_S. cbv beta iota.
    exists H', st', v. split; [done|]. split; [done|]. destruct (decide (t = inf_weight)) as [E|E]; [right|left; split; [lia|done]].
    split; [done|]. destruct Hv as (l & o & Hc & ->). by rewrite (step_inf _ _ _ _ Hc E). }
  assert (forall (m : option (W * xstate W)), ('(v, st) ← m; Some (v, st)) = m) as Hid. { intros [[? ?]|]; done. }
  rewrite Hid in Hgo.
  case_bool_decide as HF.
  - rewrite bind_S. apply Hgo. apply sel_good; [done|done|by left].
  - destruct Hat as [(? & _)|[(_ & _ & Hinf & a & y & w & ty & -> & _)|(_ & _ & Ht2 & ->)]]; [done| |].
    + rewrite !bind_S. apply Hgo. apply sel_good; [done|done|by right].
    + rewrite !bind_S. exists H, st, dflt. split; [done|]. split; [done|]. by right.
Qed.

(** All pinned nodes [l] (internal ids). *)
Lemma extract_extras_ok p l tmp out :
  side_shape n p -> n <= length tmp -> length l <= length out -> (forall i x, l !! i = Some x -> s_pnode p !! i = Some (Some x) /\ x ∈ sel) ->
  exists p' tmp' out', extract_extras dflt lnk get n gb p s (length l) tmp out = Some (p', tmp', out') /\
    side_shape n p' /\ s_queue p' = s_queue p /\ s_dist p' = s_dist p /\ s_pnode p' = s_pnode p /\ length out' = length out /\
    (forall i, length l <= i -> out' !! i = out !! i) /\
    forall i x t, l !! i = Some x -> s_dist s !! x = Some t -> exists v, out' !! i = Some v /\
      ((t < inf_weight)%N /\ extracted x t v \/ t = inf_weight /\ v = dflt).
Proof.
  intros Hp Htmp Hout Hl. destruct (sh_f _ _ Hp) as [PF HPF]. unfold extract_extras.
  destruct (f_step_refines n (s_pushed p) PF FResetAll HPF I) as (f' & Ef & Hf'). cbn [f_step f_spec] in Ef, Hf'. injection Ef as <-.
  match goal with |- context [for_range 0 ?k ?body ?st0] =>
    destruct (for_range_inv (fun i '(st, out') => (exists H, xinv H [] 0 st) /\ length out' = length out /\ (forall j, i <= j -> out' !! j = out !! j) /\
      forall j x t, j < i -> l !! j = Some x -> s_dist s !! x = Some t -> exists v, out' !! j = Some v /\
        ((t < inf_weight)%N /\ extracted x t v \/ t = inf_weight /\ v = dflt)) body 0 k st0) as ((st & out') & -> & (H & Hst) & Hlo & Hrest & Hdone) end; [lia| | |].
  - split; [|split; [done|split; [done|lia]]]. exists ∅. split; [done|]. cbn. split; [intros x Hx; by apply elem_of_empty in Hx|].
    split; [done|]. split; [apply Hp|]. split; [intros i x Hx; by rewrite lookup_nil in Hx|done].
  - intros i (st & out') Hi ((H & Hst) & Hlo & Hrest & Hdone). destruct (lookup_lt_is_Some_2 l i) as [x Hx]; [lia|].
    destruct (Hl i x Hx) as [E Hsel]. rewrite E, !bind_S. destruct (sw_done _ _ _ _ _ _ _ Hsw x Hsel) as (t & Ht & _).
    destruct (extract_extra_ok H x t st Hsel Ht Hst) as (H' & st' & v & -> & Hst' & Hv). rewrite bind_S. cbv beta iota.
    rewrite (wr_Some out') by lia. rewrite bind_S. eexists. split; [done|]. split; [eauto|]. split; [by rewrite insert_length|]. split.
    + intros j Hj. rewrite list_lookup_insert_ne by lia. apply Hrest. lia.
    + intros j y ty Hj Hy Hty. destruct (decide (j = i)) as [->|Hne].
      * assert (y = x) as -> by congruence. assert (ty = t) as -> by congruence. exists v. rewrite list_lookup_insert by lia. done.
      * rewrite list_lookup_insert_ne by done. apply Hdone; [lia|done|done].
  - rewrite bind_S. cbv beta iota. eexists _, _, _. split; [done|]. cbn. destruct Hst as (H1 & _ & _ & H4 & _).
    split; [|split; [done|split; [done|split; [done|split; [done|]]]]].
    + destruct Hp. split; cbn; [done|done|done|eauto|done].
    + split; [done|]. intros i x t Hx Ht. apply Hdone; [|done|done]. by eapply lookup_lt_Some.
Qed.
End pin.

(** ** Paths of input arcs *)
Section routes.
Context {W : Type} (dflt : W) (link : W -> W -> W) (P : W -> Prop).
Hypothesis HP : linkable link P.
Context (n : nat) (tail head : list nat) (w : list N) (c : ch) (l : list W).
Hypothesis H : ch_ok n tail head w c.
Hypothesis Hl : length l = length head.
Hypothesis HlP : Forall P l.
Context (e : extra W) (d : bool).
Hypothesis He : extra_for dflt link c l e.

Definition lnk_of : W -> W -> W := if d then link else inverse_link link.
Definition get_of (b : bool) (a : nat) : option W := get_weight link c e (if d then b else negb b) a.
Lemma get_of_t a x y v : sarc (csd c d) a x y v -> exists u, get_of true a = Some u.
Proof.
  intros Ha. destruct (get_weight_ok dflt link P HP n tail head w c l H Hl HlP e d a x y v He Ha) as (u & Hu & _). exists u. unfold get_of. by destruct d.
Qed.
Lemma get_of_f a x y v : sarc (csd c (negb d)) a x y v -> exists u, get_of false a = Some u.
Proof.
  intros Ha. destruct (get_weight_ok dflt link P HP n tail head w c l H Hl HlP e (negb d) a x y v He Ha) as (u & Hu & _). exists u. unfold get_of. by destruct d.
Qed.

(** An arc of the hierarchy walked in the direction of the query from [y] to [x]. *)
Definition part (x y : nat) (v : N) (ws : list W) : Prop := exists p u t, ch_order c !! (if d then y else x) = Some u /\ ch_order c !! (if d then x else y) = Some t /\
  route tail head w u t p v /\ mapM (fun e => l !! e) p.*1 = Some ws.
Lemma arc_part d' a x y v u : get_weight link c e d' a = Some u -> sarc (csd c d') a x y v ->
  exists p s t ws, ch_order c !! (if d' then x else y) = Some s /\ ch_order c !! (if d' then y else x) = Some t /\
    route tail head w s t p v /\ mapM (fun e => l !! e) p.*1 = Some ws /\ vals dflt link P u ws.
Proof.
  intros Hu Ha. destruct (get_weight_ok dflt link P HP n tail head w c l H Hl HlP e d' a x y v He Ha) as (u' & Hu' & p & ws & U & M & V).
  assert (u' = u) as -> by congruence. destruct (sarc_lt _ _ _ _ _ _ (co_side _ _ _ _ _ H d') Ha) as [Hx _].
  destruct (ch_unpack_ok n tail head w c H n d' a x y v Hx Ha) as (p' & s & t & U' & Hs & Ht & Hr). assert (p' = p) as -> by congruence. by exists p, s, t, ws.
Qed.

Context (R : nat -> nat -> N -> Prop) (ss : list (nat * N)) (S F : gset nat) (s0 s : cside) (sel : list nat).

Lemma step_part x t y ty b a u : step (csd c d) (csd c (negb d)) R ss S F s0 s sel x t y ty b a -> get_of b a = Some u ->
  exists p i j ws v, t = (ty + v)%N /\ ch_order c !! y = Some i /\ ch_order c !! x = Some j /\
    (if d then route tail head w i j p v else route tail head w j i p v) /\ mapM (fun e => l !! e) p.*1 = Some ws /\ vals dflt link P u ws.
Proof.
  intros (_ & _ & _ & _ & v & -> & Hb) Hu. unfold get_of in Hu. destruct b.
  - destruct Hb as (_ & _ & _ & Ha & _). replace (if d then true else negb true) with d in Hu by (by destruct d).
    destruct (arc_part d a y x v u Hu Ha) as (p & i & j & ws & E1 & E2 & E3 & E4 & E5). destruct d.
    + exists p, i, j, ws, v. done.
    + exists p, j, i, ws, v. done.
  - destruct Hb as (_ & Ha & _). replace (if d then false else negb false) with (negb d) in Hu by (by destruct d).
    destruct (arc_part (negb d) a x y v u Hu Ha) as (p & i & j & ws & E1 & E2 & E3 & E4 & E5). destruct d; cbn [negb] in *.
    + exists p, i, j, ws, v. done.
    + exists p, j, i, ws, v. done.
Qed.

Lemma xchain_route x t as_ o : xchain lnk_of get_of (csd c d) (csd c (negb d)) R ss S F s0 s sel x t as_ o ->
  (forall z dz, (z, dz) ∈ ss -> z < n) ->
  exists z d0 L p ws i j, (z, d0) ∈ ss /\ t = (d0 + L)%N /\ ch_order c !! z = Some i /\ ch_order c !! x = Some j /\
    (if d then route tail head w i j p L else route tail head w j i p L) /\ mapM (fun e => l !! e) p.*1 = Some ws /\
    match o with None => p = [] | Some r => vals dflt link P r ws end.
Proof.
  intros Hx Hss. induction Hx as [x t (_ & _ & _ & Hs)|x t y ty b a u as_ o Hst Hu Hy IH].
  - destruct (order_at n tail head w c H x (Hss _ _ Hs)) as (i & Hi & _). exists x, t, 0%N, [], [], i, i.
    split; [done|]. split; [lia|]. do 2 (split; [done|]). split; [destruct d; apply route_nil|done].
  - destruct IH as (z & d0 & L & p & ws & i & j & A1 & -> & A3 & A4 & A5 & A6 & A7).
    destruct (step_part _ _ _ _ _ _ _ Hst Hu) as (p' & i' & j' & ws' & v & -> & B1 & B2 & B3 & B4 & B5). assert (i' = j) as -> by congruence.
    unfold lnk_of. destruct d.
    + exists z, d0, (L + v)%N, (p ++ p'), (ws ++ ws'), i, j'. split; [done|]. split; [lia|]. do 2 (split; [done|]). split; [by eapply route_app|].
      rewrite fmap_app. split; [by apply mapM_app|]. destruct o as [r|].
      * by apply (vals_app dflt link P HP).
      * subst p. injection A6 as <-. done.
    + exists z, d0, (v + L)%N, (p' ++ p), (ws' ++ ws), i, j'. split; [done|]. split; [lia|]. do 2 (split; [done|]). split; [by eapply route_app|].
      rewrite fmap_app. split; [by apply mapM_app|]. destruct o as [r|].
      * unfold inverse_link. by apply (vals_app dflt link P HP).
      * subst p. injection A6 as <-. rewrite app_nil_r. done.
Qed.
End routes.
