(** * C71 and C72: the program that converts positions *)
From Coq Require Import ZArith Reals Lra.
From Flocq Require Import IEEE754.Binary IEEE754.Bits.
From Verif Require Import Base ProtobufModel VectorIoModel TextModel TextSpec TextProofs VectorToolSpec VectorToolProofs GraphToolSpec CoordToolModel CoordToolSpec CoordToolProofs FloatModel FloatProofs.
From Coq Require String. Import String.StringSyntax.
Ltac Zify.zify_post_hook ::= idtac.

(** ** C71 *)
(** The program writes two files for exactly those texts in which every node has one position; the files contain these positions by node. *)
Theorem C71_convert : forall encode file f1 f2, convert_road_dimacs_coordinates encode file = Some (Ret (f1, f2)) <->
  exists n ps lat lon, positions_text n ps file /\ positions n ps lat lon /\ f1 = concat (encode <$> lat) /\ f2 = concat (encode <$> lon).
Proof. apply coordinates_accepted. Qed.
Print Assumptions C71_convert.
(** All other texts are refused, with the exception of texts without a header. *)
Theorem C71_refuses_partial : forall encode file l, l ∈ getlines file -> ~ comment_line l ->
  (forall n ps lat lon, positions_text n ps file -> ~ positions n ps lat lon) -> convert_road_dimacs_coordinates encode file = Some Throw.
Proof.
  intros encode file l Hl Hc Hno. destruct (convert_road_dimacs_coordinates encode file) as [[[f1 f2]|]|] eqn:E; [|done|].
  - exfalso. apply C71_convert in E as (n & ps & lat & lon & H1 & H2 & _). by eapply Hno.
  - exfalso. apply coordinates_undefined in E. rewrite Forall_forall in E. by apply Hc, E.
Qed.
Print Assumptions C71_refuses_partial.
(** A text without a header, for example an empty one: node_count has no value when it is used. *)
Theorem C71_header_refuted : exists file, (forall n ps, ~ positions_text n ps file) /\ forall encode, convert_road_dimacs_coordinates encode file = None.
Proof.
  exists (text "c no header
"). split; [|intros encode; vm_compute; reflexivity].
  intros n ps (cs & hd & ls & Hf & Hcs & Hhd & _). apply getlines_spec in Hf. change (getlines _) with [text "c no header"] in Hf.
  destruct cs as [|c cs]; [|by destruct cs]. injection Hf as Hf _. apply Hhd. rewrite <- Hf. right. by eexists.
Qed.
Print Assumptions C71_header_refuted.

(** ** C72 *)
Local Open Scope R_scope.
(** The position that the program stores for [k] millionths of a degree. It is a number and differs from [k / 1000000] by at most 8 millionths. *)
Theorem C72_error : forall k, (Z.abs k <= 180000000)%Z -> is_finite 24 128 (micro_float k) = true /\ Rabs (B2R 24 128 (micro_float k) - IZR k / 1000000) <= 8 / 1000000.
Proof. intros k Hk. split; [apply micro_float_spec; lia|by apply micro_float_error]. Qed.
Print Assumptions C72_error.
(** The order of positions is kept, for all numbers that can be read. *)
Theorem C72_order : forall k k', (- 2 ^ 63 <= k <= k')%Z -> (k' < 2 ^ 63)%Z -> B2R 24 128 (micro_float k) <= B2R 24 128 (micro_float k') /\ float_less (micro_float k') (micro_float k) = false.
Proof.
  intros k k' Hk Hk'. assert (B2R 24 128 (micro_float k) <= B2R 24 128 (micro_float k')) as H by (apply micro_float_mono; lia). split; [done|].
  destruct (float_less _ _) eqn:E; [|done]. apply float_less_spec in E; [lra|apply micro_float_spec; lia|apply micro_float_spec; lia].
Qed.
Print Assumptions C72_order.
(** What was written can be read. *)
Theorem C72_bytes : forall k, length (float_bytes (micro_float k)) = 4%nat /\ bytes_float (float_bytes (micro_float k)) = micro_float k.
Proof. intros k. apply float_bytes_value. Qed.
Print Assumptions C72_bytes.
(** More is not true: different positions may become the same. *)
Example C72_same : exists k k', k <> k' /\ (Z.abs k <= 180000000)%Z /\ (Z.abs k' <= 180000000)%Z /\ micro_float k = micro_float k'.
Proof.
  exists 179000001%Z, 179000002%Z. split; [done|]. split; [lia|]. split; [lia|].
  assert (float_bytes (micro_float 179000001) = float_bytes (micro_float 179000002)) as E by (vm_compute; reflexivity).
  rewrite <- (proj2 (C72_bytes 179000001)), E. apply C72_bytes.
Qed.
Local Close Scope R_scope.

(** ** Example *)
Definition place_file : list N := text "c positions
p aux sp co 3

v 3 -73530767 41085396
c
v 1	+8404435 49013513 
v 2 179000001 -90000000".
Definition place_list : list (nat * Z * Z) := [(2, (-73530767)%Z, 41085396%Z); (0, 8404435%Z, 49013513%Z); (1, 179000001%Z, (-90000000)%Z)].
Definition place_lat : list Z := [49013513; -90000000; 41085396]%Z.
Definition place_lon : list Z := [8404435; 179000001; -73530767]%Z.
Definition store_position (k : Z) : list N := float_bytes (micro_float k).
Example C71_ex : positions_text 3 place_list place_file /\ positions 3 place_list place_lat place_lon /\
  convert_road_dimacs_coordinates store_position place_file = Some (Ret (concat (store_position <$> place_lat), concat (store_position <$> place_lon))) /\
  convert_road_dimacs_coordinates store_position (text "p aux sp co 2
v 1 10 20
v 1 30 40") = Some Throw /\
  convert_road_dimacs_coordinates store_position (text "p aux sp co 2
v 1 10 20") = Some Throw /\
  convert_road_dimacs_coordinates store_position (text "p aux sp co 1
v 0 10 20") = Some Throw.
Proof.
  assert (positions 3 place_list place_lat place_lon) as Hp.
  { split; [apply (bool_decide_unpack _); vm_compute; exact I|]. split; [done|]. split; [done|]. intros v x y. unfold place_list. rewrite !elem_of_cons. intros [[= -> -> ->]|[[= -> -> ->]|[[= -> -> ->]|H]]]; [done..|inversion H]. }
  split; [|split; [done|]].
  - assert (forall l v x y, l <> [] -> (forall l', l <> 99%N :: l') -> read_position l = Ret (N.of_nat v, x, y) -> ~ comment_line l /\ position_line (v, x, y) l) as Hline.
    { intros l v x y H1 H2 E. split; [intros [?|[l' ?]]; [done|by eapply H2]|]. apply read_position_iff in E. by rewrite Nat2N.id in E. }
    exists [text "c positions"], (text "p aux sp co 3"), [text ""; text "v 3 -73530767 41085396"; text "c"; text "v 1	+8404435 49013513 "; text "v 2 179000001 -90000000"].
    split; [|split; [|split; [|split]]].
    + change ([text "c positions"] ++ _) with (getlines place_file). apply getlines_lines.
    + constructor; [right; by eexists|constructor].
    + intros [?|[l' ?]]; done.
    + apply (read_size_iff _ 3%N). vm_compute. reflexivity.
    + apply pl_comment; [by left|]. apply pl_position; [apply (Hline _ 2%nat (-73530767)%Z 41085396%Z); [done|done|vm_compute; reflexivity]..|].
      apply pl_comment; [right; by eexists|]. apply pl_position; [apply (Hline _ 0%nat 8404435%Z 49013513%Z); [done|done|vm_compute; reflexivity]..|].
      apply pl_position; [apply (Hline _ 1%nat 179000001%Z (-90000000)%Z); [done|done|vm_compute; reflexivity]..|]. constructor.
  - repeat split; vm_compute; reflexivity.
Qed.
Example C72_ex : float_bytes (micro_float (-73530767)) = [193; 15; 147; 194]%N /\ float_bytes (micro_float 500000) = [0; 0; 0; 63]%N /\
  float_less (micro_float (-73530767)) (micro_float 8404435) = true /\ float_less (micro_float 8404435) (micro_float (-73530767)) = false.
Proof. repeat split; vm_compute; reflexivity. Qed.
