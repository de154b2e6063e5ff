(** Model of include/routingkit/vector_io.h ([h:]), src/vector_io.cpp ([c:]) and of the file functions of
    src/contraction_hierarchy.cpp ([ch:]) on streams that fail. VectorIoModel and ChFileModel have the formats.

    The device has room for [room] bytes while the program runs. A std::ofstream hands some bytes of what it
    was given to the device at each call of write and keeps the others in a buffer: [pushes i] says how many
    it hands over at call number [i]; nothing else is assumed about it. The destructor hands over the others.
    If the device does not take all bytes, write sets the badbit, after which write does nothing. What the
    destructor can not store is lost without notice (it does not set a bit that anyone could look at). *)
From Verif Require Import Base ProtobufModel BitVectorModel VectorIoModel ChFileModel.

(** ** Output streams *)
Record ostr := mkOs { os_file : list N; os_buf : list N; os_bad : bool; os_calls : nat }.
Section device.
  Context (room : nat) (pushes : nat -> nat).
  (** std::ofstream::write *)
  Definition os_write (bs : list N) (s : ostr) : ostr :=
    if os_bad s then s else
    let all := os_buf s ++ bs in
    let k := pushes (os_calls s) in
    let file := os_file s ++ take k all in
    mkOs (take room file) (drop k all) (bool_decide (room < length file)) (S (os_calls s)).
  (** The constructor, when the file can be opened. *)
  Definition os_opened : ostr := mkOs [] [] false 0.
  (** The destructor: the contents of the file. *)
  Definition os_close (s : ostr) : list N := take room (os_file s ++ os_buf s).

  (** What remains of a call: exception or not, and the file ([None]: it was not opened). *)
  Definition saved : Type := result unit * option (list N).

  (** h:15-22; [bs] are the bytes of the vector *)
  Definition save_vector_file {A} (enc : A -> list N) (opens : bool) (v : list A) : saved :=
    if opens then (Ret tt, Some (os_close (os_write (concat (enc <$> v)) os_opened))) else (Throw, None).
  (** c:5-12. There is no test whether the file was opened; if it was not, the stream is bad. *)
  Definition save_strings_file (opens : bool) (v : list (list N)) : saved :=
    let s := mkOs [] [] (negb opens) 0 in
    let s := fold_left (fun s x => os_write (x ++ [0%N]) s) v s in
    (Ret tt, if opens then Some (os_close s) else None).
  (** c:37-44 *)
  Definition save_bits_file (opens : bool) (v : bitvec) : saved :=
    if opens then
      let s := os_write (le_bytes 8 (N.of_nat (bv_size v))) os_opened in
      let s := os_write (concat (le_bytes 8 <$> bv_data v)) s in
      (Ret tt, Some (os_close s))
    else (Throw, None).

  (** h:70-76, h:88-95 and the function object of ch:1320-1327: write, then test the stream. *)
  Definition checked_write (bs : list N) (s : ostr) : result unit * ostr :=
    let s := os_write bs s in ((if os_bad s then Throw else Ret tt), s).
  Definition write_value_os {A} (enc : A -> list N) (x : A) (s : ostr) : result unit * ostr := checked_write (enc x) s.
  Definition write_vector_os {A} (enc : A -> list N) (v : list A) (s : ostr) : result unit * ostr := checked_write (concat (enc <$> v)) s.
  (** A sequence of such calls; the first exception ends it. *)
  Definition step (p : ostr -> result unit * ostr) (q : ostr -> result unit * ostr) (s : ostr) : result unit * ostr :=
    match p s with (Ret _, s) => q s | (Throw, s) => (Throw, s) end.
  (** h:155-161 *)
  Definition open_file_for_saving (opens : bool) (f : ostr -> result unit * ostr) : saved :=
    if opens then let (r, s) := f os_opened in (r, Some (os_close s)) else (Throw, None).

  (** h:141-151: through the function object of ch:1320-1327 *)
  Definition write_bits_os (v : bitvec) (s : ostr) : result unit * ostr := checked_write (concat (le_bytes 8 <$> bv_data v)) s.
  (** ch:1411-1416 and ch:1418-1423: one direction *)
  Definition write_side_os (d : fside) : ostr -> result unit * ostr :=
    step (write_vector_os enc_id (f_first_out d))
    (step (write_vector_os enc_id (f_head d))
    (step (write_vector_os (le_bytes 4) (f_weight d))
    (step (write_bits_os (f_orig d))
    (step (write_vector_os enc_id (f_first d))
    (write_vector_os enc_id (f_second d)))))).
  (** ch:1401-1424 *)
  Definition write_ch_os (pad : list N) (o : chobj) : ostr -> result unit * ostr :=
    let header := mkHeader ch_magic_number (u32 ((N.of_nat (length (f_first_out (o_fwd o))) + (2 ^ 64 - 1)) mod 2 ^ 64))
      (u32 (N.of_nat (length (f_head (o_fwd o))))) (u32 (N.of_nat (length (f_head (o_bwd o))))) in
    step (write_value_os (enc_header pad) header)
    (step (write_vector_os enc_id (o_rank o))
    (step (write_side_os (o_fwd o)) (write_side_os (o_bwd o)))).
  (** ch:1336-1338 *)
  Definition save_ch_file (opens : bool) (pad : list N) (o : chobj) : saved := open_file_for_saving opens (write_ch_os pad o).
End device.

(** ** Input streams *)
(** A std::ifstream can read no more than the first [avail] bytes of the file, although seekg and tellg give
    its size. [is_read n]: what read stores into memory that holds [old] ([n] bytes) before. *)
Definition is_read (avail : nat) (file old : list N) : list N :=
  let got := take (length old) (take avail file) in got ++ drop (length got) old.
(** h:24-38. The elements of the vector are zero before; whether all were read is not tested. *)
Definition load_vector_file {A} (sz : nat) (dec : list N -> A) (avail : nat) (file : list N) : result (list A) :=
  if decide (length file mod sz <> 0) then Throw
  else Ret (dec <$> groups (length file / sz) sz (is_read avail file (replicate (length file) 0%N))).
(** c:46-61. The bits are false before (bit_vector.cpp:194-212); not tested either. *)
Definition load_bits_file (garbage : list N) (avail : nat) (file : list N) : result (N * list N) :=
  let size := le_word (is_read avail file garbage) in
  let blocks := (((size + 511) mod 2 ^ 64) / 512)%N in
  if decide (blocks * 64 + 8 <> N.of_nat (length file))%N then Throw
  else Ret (size, le_word <$> groups (8 * N.to_nat blocks) 8 (is_read (avail - 8) (drop 8 file) (replicate (64 * N.to_nat blocks) 0%N))).
(** c:14-35 *)
Definition load_strings_file (avail : nat) (file : list N) : result (list (list N)) :=
  match load_vector_file 1 (fun bs => nth 0 bs 0%N) avail file with Ret data => Ret (split_strings data []) | Throw => Throw end.
(** ch:1311-1318 and ch:1330-1334: every call of read is tested. *)
Definition load_ch_file (avail : nat) (file : list N) : option (result chobj) :=
  andthen (read_ch_sized (take avail file) (N.of_nat (length file))) (fun '(o, _) => Some (Ret o)).
