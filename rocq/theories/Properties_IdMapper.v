(** C06: the mapping between global and local ids is an order-preserving bijection. *)
From Verif Require Import Base BitVectorModel BitVectorSpec BitVectorProofs BitVectorBulkProofs IdMapperModel IdMapperProofs.

(** The mapper of a bit vector: the local id of a set bit is the number of set bits before it. *)
Theorem C06_id_mapper : forall v l, bv_rep v l ->
  exists m, new_mapper (bv_size v) (bv_data v) = Some m /\
    local_id_count m = count_true l /\ global_id_count m = length l /\
    (forall g, g < length l -> is_global_id_mapped m g = Some (nth g l false)) /\
    (forall g, nth g l false = true -> to_local m g = Some (count_true (take g l)) /\ to_global m (count_true (take g l)) = Some g) /\
    (forall i, i < count_true l -> exists g, to_global m i = Some g /\ g < length l /\ nth g l false = true /\ to_local m g = Some i) /\
    (forall g d, to_local_or m g d = Some (if nth g l false then Some (count_true (take g l)) else d)).
Proof.
  intros v l H. destruct (new_mapper_spec v l H) as (m & E & Hm). exists m. split; [done|]. split; [by apply local_count_spec|]. split; [apply (mo_count _ _ Hm)|].
  split; [intros; by apply mapped_spec|]. split; [intros g Hg; split; [by apply to_local_spec|by apply to_global_local]|]. split.
  - intros i Hi. destruct (to_global_spec _ _ _ Hm Hi) as (g & Eg & Hg & Hc). exists g. split; [done|]. split; [by destruct (count_lt _ _ _ Hm Hg)|]. split; [done|].
    by rewrite (to_local_spec _ _ _ Hm Hg), Hc.
  - intros g d. by apply to_local_or_spec.
Qed.
Print Assumptions C06_id_mapper.

(** Smaller global ids have smaller local ids. *)
Theorem C06_order_preserving : forall v l m g g' i i', bv_rep v l -> new_mapper (bv_size v) (bv_data v) = Some m ->
  nth g l false = true -> nth g' l false = true -> to_local m g = Some i -> to_local m g' = Some i' -> (g < g' <-> i < i').
Proof.
  intros v l m g g' i i' H E Hg Hg' Hi Hi'. destruct (new_mapper_spec v l H) as (m' & E' & Hm). rewrite E in E'. injection E' as <-.
  rewrite (to_local_spec _ _ _ Hm Hg) in Hi. rewrite (to_local_spec _ _ _ Hm Hg') in Hi'. injection Hi as <-. injection Hi' as <-.
  rewrite <- !(mo_ranks _ _ Hm).
  assert (forall x y, nth x l false = true -> x < y -> rank_bits (bits_ m) x < rank_bits (bits_ m) y) as Hlt.
  { intros x y Hx Hxy. pose proof (rank_bits_S (bits_ m) x) as Hs. rewrite (mo_bits _ _ Hm), Hx in Hs. pose proof (rank_bits_mono (bits_ m) (S x) y Hxy). lia. }
  split; [by apply Hlt|]. intros Hr. destruct (lt_eq_lt_dec g g') as [[?|<-]|Hgt]; [done|lia|]. specialize (Hlt g' g Hg' Hgt). lia.
Qed.
Print Assumptions C06_order_preserving.

(** A mapper that was only default constructed maps nothing. *)
Theorem C06_empty : forall g d, local_id_count empty_mapper = 0 /\ to_local_or empty_mapper g d = Some d.
Proof. intros g d. split; [done|]. unfold to_local_or. rewrite decide_True by apply le_0_n. done. Qed.
Print Assumptions C06_empty.

(** 5000 bits, sparse at the start and dense at the end. *)
Example C06_ex :
  (v ← make_bit_vector (replicate 80 0%N) 5000 (fun x => bool_decide (x < 3000 /\ x mod 700 = 3) || bool_decide (4000 <= x /\ x mod 7 <> 0));
   m ← new_mapper (bv_size v) (bv_data v);
   gs ← mapM (to_global m) [0; 1; 4; 5; 255; 256; 260; 511; 512; 700; 861];
   ls ← mapM (to_local m) gs;
   us ← mapM (fun g => to_local_or m g None) [3; 4; 4004; 4005; 4999; 5000; 9999];
   Some (local_id_count m, select_ m, gs, ls, us))
  = Some (862, [0; 8; 8; 9], [3; 703; 2803; 4000; 4292; 4293; 4297; 4590; 4591; 4811; 4999], [0; 1; 4; 5; 255; 256; 260; 511; 512; 700; 861],
          [Some 0; None; None; Some 9; Some 861; None; None]).
Proof. vm_compute. reflexivity. Qed.
