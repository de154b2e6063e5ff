(** C78: the programs graph_to_dot and graph_to_svg. *)
From Coq Require Import ZArith Reals Lra.
From Flocq Require Import IEEE754.Binary IEEE754.Bits.
From Verif Require Import Base ProtobufModel VectorIoModel VectorIoProofs Properties_VectorIo GraphSpec PathSpec ChFileModel VerifyProofs DistanceToolModel DistanceToolSpec DistanceToolProofs TextModel TextSpec TextProofs FloatModel FloatProofs
  PictureModel PictureFloat PictureProofs Properties_DistanceTool.
From Coq Require String. Import String.StringSyntax.
From Verif Require Import PictureSpec.
Ltac Zify.zify_post_hook ::= idtac.

(** The file for dot has a line for each arc, in the order of the arcs. *)
Theorem C78_dot_partial : forall fo tail head w, stored_graph fo tail head w ->
  exists lines, graph_to_dot (id_file fo) (id_file head) (word_file w) = Some (Ret (ptext "digraph G{" ++ concat lines ++ ptext "}" ++ [10%N])) /\
    length lines = length head /\
    forall e l, lines !! e = Some l -> exists x y k, tail !! e = Some x /\ head !! e = Some y /\ w !! e = Some k /\ dot_line x y k l.
Proof.
  intros fo tail head w [Hc Ht Hw Hn Hm Hww]. destruct (csr_fits _ _ Hc Hn Hm) as [F1 F2]. pose proof (csr_tails_lt _ _ _ _ Hc Ht) as Htl.
  unfold graph_to_dot. rewrite (load_id_file fo F1), (load_id_file head F2), (load_word_file w Hww). cbn [andthen].
  destruct (all_arcs_text fo tail head (dot_arc head w) (fun e l => exists x y k, tail !! e = Some x /\ head !! e = Some y /\ w !! e = Some k /\ dot_line x y k l) (text "digraph G{") Hc Ht) as (lines & -> & Hl & Hi).
  - intros e x out He Hlt. destruct (lookup_lt_is_Some_2 head e Hlt) as [y Hy]. destruct (lookup_lt_is_Some_2 w e) as [k Hk]; [lia|].
    unfold dot_arc. rewrite Hy, bind_S, Hk, bind_S. eexists. split; [done|]. exists x, y, k. split; [done|]. split; [done|]. split; [done|].
    exists (print_unsigned (N.of_nat x)), (print_unsigned (N.of_nat y)), (print_unsigned k). split_and!; [apply small_numeral|apply small_numeral| |done].
    + pose proof (Forall_lookup_1 _ _ _ _ Htl He) as Hx. cbv beta in Hx. unfold fits32 in *. lia.
    + by apply (Forall_lookup_1 _ _ _ _ F2 Hy).
    + apply print_unsigned_spec. pose proof (Forall_lookup_1 _ _ _ _ Hww Hk) as Hkk. cbv beta in Hkk. change (2 ^ 32)%N with 4294967296%N in Hkk. change (2 ^ 64)%N with 18446744073709551616%N. lia.
  - rewrite bind_S. exists lines. split; [by rewrite <- app_assoc|done].
Qed.
Print Assumptions C78_dot_partial.

Lemma float_image : image 4 float_bytes bytes_float (fun _ => True).
Proof. split; [lia|]. intros x _. apply float_bytes_value. Qed.
(** The picture has a line for each arc, between the positions of its ends. The positions are scaled to a square of size 300 and the vertical axis is reversed. Partial:
    the coordinates have to be numbers that are not all the same, and they may be outside of the square by 1/32768, see below. *)
Theorem C78_svg_partial : forall show fo tail head w latitude longitude, stored_graph fo tail head w ->
  spread latitude -> spread longitude -> length fo - 1 <= length latitude -> length fo - 1 <= length longitude ->
  exists lat lon lines, graph_to_svg show (id_file fo) (id_file head) (concat (float_bytes <$> latitude)) (concat (float_bytes <$> longitude)) = Some (Ret (svg_file lines)) /\
    fitted latitude lat /\ fitted longitude lon /\ length lines = length head /\
    forall e l, lines !! e = Some l -> exists x y x1 y1 x2 y2 v1 v2, tail !! e = Some x /\ head !! e = Some y /\
      lon !! x = Some x1 /\ lat !! x = Some y1 /\ lon !! y = Some x2 /\ lat !! y = Some y2 /\
      is_finite 24 128 v1 = true /\ is_finite 24 128 v2 = true /\
      (Rabs (B2R 24 128 v1 - (300 - B2R 24 128 y1)) <= / 65536)%R /\ (Rabs (B2R 24 128 v2 - (300 - B2R 24 128 y2)) <= / 65536)%R /\
      l = svg_line (show x1) (show v1) (show x2) (show v2).
Proof.
  intros show fo tail head w latitude longitude [Hc Ht Hw Hn Hm Hww] S1 S2 L1 L2. destruct (csr_fits _ _ Hc Hn Hm) as [F1 F2]. pose proof (csr_tails_lt _ _ _ _ Hc Ht) as Htl.
  unfold graph_to_svg. rewrite (load_id_file fo F1), (load_id_file head F2). cbn [andthen].
  pose proof (C40_vector 4 float_bytes bytes_float (fun _ => True) latitude float_image ltac:(by apply Forall_forall)) as E1. pose proof (C40_vector 4 float_bytes bytes_float (fun _ => True) longitude float_image ltac:(by apply Forall_forall)) as E2.
  unfold save_vector in E1, E2. rewrite E1, E2. cbn [andthen].
  destruct (scale_spec latitude S1) as (lat & -> & T1). destruct (scale_spec longitude S2) as (lon & -> & T2). rewrite !bind_S.
  assert (forall v, v ∈ lat -> is_finite 24 128 (float_minus float_300 v) = true /\ (Rabs (B2R 24 128 (float_minus float_300 v) - (300 - B2R 24 128 v)) <= / 65536)%R) as Hv.
  { intros v Hv. apply elem_of_list_lookup in Hv as (i & Hi). destruct T1 as (Hlen & least & greatest & _ & T1 & _). destruct (lookup_lt_is_Some_2 latitude i) as [x Hx]; [rewrite <- Hlen; by eapply lookup_lt_Some|].
    destruct (T1 i x v Hx Hi) as (Fv & Bv & _). by apply reverse_val. }
  pose proof (proj1 T1) as Ln1. pose proof (proj1 T2) as Ln2.
  destruct (all_arcs_text fo tail head (svg_arc show head lat lon) (fun e l => exists x y x1 y1 x2 y2 v1 v2, tail !! e = Some x /\ head !! e = Some y /\
      lon !! x = Some x1 /\ lat !! x = Some y1 /\ lon !! y = Some x2 /\ lat !! y = Some y2 /\
      is_finite 24 128 v1 = true /\ is_finite 24 128 v2 = true /\
      (Rabs (B2R 24 128 v1 - (300 - B2R 24 128 y1)) <= / 65536)%R /\ (Rabs (B2R 24 128 v2 - (300 - B2R 24 128 y2)) <= / 65536)%R /\
      l = svg_line (show x1) (show v1) (show x2) (show v2)) (text "<svg xmlns=""http://www.w3.org/2000/svg"" xmlns:xlink=""http://www.w3.org/1999/xlink"" viewBox=""0 0 300 300"">" ++ [10%N]) Hc Ht) as (lines & E & Hl & Hi).
  - intros e x out He Hlt. destruct (lookup_lt_is_Some_2 head e Hlt) as [y Hy]. pose proof (Forall_lookup_1 _ _ _ _ Htl He) as Hx. cbv beta in Hx.
    pose proof (csr_head _ _ _ Hc y (elem_of_list_lookup_2 _ _ _ Hy)) as Hyn.
    destruct (lookup_lt_is_Some_2 lon x) as [x1 Hx1]; [lia|]. destruct (lookup_lt_is_Some_2 lat x) as [y1 Hy1]; [lia|]. destruct (lookup_lt_is_Some_2 lon y) as [x2 Hx2]; [lia|]. destruct (lookup_lt_is_Some_2 lat y) as [y2 Hy2]; [lia|].
    unfold svg_arc. rewrite Hy, bind_S, Hx1, bind_S, Hy1, bind_S, Hx2, bind_S, Hy2, bind_S. eexists. split; [done|].
    destruct (Hv y1) as [A1 B1]; [by eapply elem_of_list_lookup_2|]. destruct (Hv y2) as [A2 B2]; [by eapply elem_of_list_lookup_2|].
    exists x, y, x1, y1, x2, y2, (float_minus float_300 y1), (float_minus float_300 y2). split_and!; done.
  - rewrite E, bind_S. exists lat, lon, lines. split; [|done]. unfold svg_file. by rewrite <- (app_assoc _ (concat lines)).
Qed.
Print Assumptions C78_svg_partial.

(** The graph of C58 with positions in degrees. What is printed for a float is its whole part here. *)
Definition show_whole (x : binary32) : list N :=
  match x with
  | B754_finite _ _ s m e _ => (if s then [45%N] else []) ++ print_unsigned (Z.to_N (if (0 <=? e)%Z then Z.pos m * 2 ^ e else Z.pos m / 2 ^ (- e)))
  | B754_zero _ _ _ => text "0" | B754_nan _ _ _ _ _ => text "nan" | B754_infinity _ _ _ => text "inf" end.
Definition ex_lat : list Z := [49000000; 49250000; 49500000; 50000000]%Z.
Definition ex_lon : list Z := [8500000; 8000000; 9000000; 8250000]%Z.
Lemma spread_micro l : Forall (fun k => (Z.abs k <= 2 ^ 63)%Z) l -> existsb (fun a => existsb (fun b => float_less (micro_float a) (micro_float b)) l) l = true -> spread (micro_float <$> l).
Proof.
  intros Hl He. assert (forall k, k ∈ l -> number (micro_float k)) as Hn.
  { intros k Hk. rewrite Forall_forall in Hl. destruct (micro_float_spec k (Hl k Hk)) as (H1 & _ & H2). split; [done|]. by rewrite <- bpow63. }
  split.
  - apply Forall_forall. intros x Hx. apply elem_of_list_fmap in Hx as (k & -> & Hk). by apply Hn.
  - apply existsb_exists in He as (a & Ha & He). apply existsb_exists in He as (b & Hb & He). apply elem_of_list_In in Ha, Hb.
    exists (micro_float a), (micro_float b). split; [by apply elem_of_list_fmap_1|]. split; [by apply elem_of_list_fmap_1|].
    apply float_less_spec in He; [|apply Hn, Ha|apply Hn, Hb]. intros E. rewrite E in He. by apply Rlt_irrefl in He.
Qed.
Example C78_ex : stored_graph ex_fo ex_tail ex_head ex_w /\ spread (micro_float <$> ex_lat) /\ spread (micro_float <$> ex_lon) /\
  graph_to_dot (id_file ex_fo) (id_file ex_head) (word_file ex_w) =
    Some (Ret (text "digraph G{0 -> 1[label=""5""];" ++ [10%N] ++ text "0 -> 2[label=""2""];" ++ [10%N] ++ text "1 -> 3[label=""1""];" ++ [10%N] ++
      text "2 -> 1[label=""1""];" ++ [10%N] ++ text "3 -> 0[label=""7""];" ++ [10%N] ++ text "}" ++ [10%N])) /\
  graph_to_svg show_whole (id_file ex_fo) (id_file ex_head) (concat (float_bytes <$> (micro_float <$> ex_lat))) (concat (float_bytes <$> (micro_float <$> ex_lon))) =
    Some (Ret (svg_file [svg_line (text "150") (text "300") (text "0") (text "225"); svg_line (text "150") (text "300") (text "300") (text "150"); svg_line (text "0") (text "225") (text "75") (text "0");
      svg_line (text "300") (text "150") (text "0") (text "225"); svg_line (text "75") (text "0") (text "150") (text "300")])).
Proof.
  split; [apply ex_stored|]. split; [apply spread_micro; [by repeat constructor|by vm_compute]|]. split; [apply spread_micro; [by repeat constructor|by vm_compute]|].
  split; vm_compute; reflexivity.
Qed.
(** What is missing. Nothing is checked about the graph: an empty first_out or missing weights let the programs read outside of an array. *)
Theorem C78_input_refuted : graph_to_dot (id_file []) (id_file []) (word_file []) = None /\
  (exists w, csr (length ex_fo - 1) ex_fo ex_head /\ length w <> length ex_head /\ graph_to_dot (id_file ex_fo) (id_file ex_head) (word_file w) = None) /\
  graph_to_svg show_whole (id_file [0]) (id_file []) [] [] = None.
Proof.
  split; [vm_compute; reflexivity|]. split; [|vm_compute; reflexivity]. exists (take 4 ex_w). split; [apply ex_stored|]. split; [done|vm_compute; reflexivity].
Qed.
Print Assumptions C78_input_refuted.
(** If all nodes have the same latitude, the coordinates are not numbers: zero is divided by zero. *)
Theorem C78_same_refuted : exists fo tail head w latitude longitude, stored_graph fo tail head w /\ Forall number latitude /\ spread longitude /\ length latitude = length fo - 1 /\ length longitude = length fo - 1 /\
  (exists lat, scale_coordinates latitude = Some lat /\ Forall (fun y => is_nan 24 128 y = true) lat) /\
  graph_to_svg show_whole (id_file fo) (id_file head) (concat (float_bytes <$> latitude)) (concat (float_bytes <$> longitude)) =
    Some (Ret (svg_file [svg_line (text "0") (text "nan") (text "300") (text "nan")])).
Proof.
  exists [0; 1; 1], [0], [1], [3%N], (micro_float <$> [49000000; 49000000]%Z), (micro_float <$> [8000000; 9000000]%Z). split_and!.
  - assert (csr 2 [0; 1; 1] [1]) as Hc. { destruct (check_graph_spec [0; 1; 1] [1]) as (r & E & H); [done|]. apply H. by injection E as <-. }
    split; [done| |done|done|done|by repeat constructor]. destruct (tails_exist [0; 1; 1] [1] Hc) as (tail & E & Ht). vm_compute in E. by injection E as <-.
  - apply Forall_forall. intros x Hx. apply elem_of_list_fmap in Hx as (k & -> & Hk). assert (k = 49000000%Z) as ->. { repeat (apply elem_of_cons in Hk as [-> |Hk]; [done|]). by apply elem_of_nil in Hk. }
    destruct (micro_float_spec 49000000 ltac:(by vm_compute)) as (H1 & _ & H2). split; [done|]. by rewrite <- bpow63.
  - apply spread_micro; [by repeat constructor|by vm_compute].
  - done.
  - done.
  - eexists. split; [reflexivity|]. repeat constructor.
  - vm_compute. reflexivity.
Qed.
Print Assumptions C78_same_refuted.
(** By rounding, a point can be outside of the square: a width of about 1.7 degrees. *)
Theorem C78_square_refuted : exists v v', Forall (fun x => is_finite 24 128 x = true) v /\ scale_coordinates v = Some v' /\
  exists i y, v' !! i = Some y /\ float_less float_300 y = true /\ float_less (float_minus float_300 y) (micro_float 0) = true.
Proof.
  exists [micro_float 0; b32_of_bits 1071281170], (default [] (scale_coordinates [micro_float 0; b32_of_bits 1071281170])).
  split; [repeat constructor|]. split; [reflexivity|]. exists 1, (scale_coordinate (micro_float 0) (b32_of_bits 1071281170) (b32_of_bits 1071281170)).
  split; [reflexivity|]. split; vm_compute; reflexivity.
Qed.
Print Assumptions C78_square_refuted.
