(** Model of src/file_data_source.cpp ([c:]) and src/file_data_source.h ([h:]), in both variants: [posix] says whether the variant of c:20-93 or that of
    c:97-172 (if ROUTING_KIT_NO_POSIX is defined) is compiled. The operating system is modelled as a table of open descriptors, each with the content of the file and the
    position. Files do not change, and reading a regular file that is open does not fail. A program is a sequence of operations on variables of the class. [None] is undefined behaviour. *)
From stdpp Require Import gmap.
From Verif Require Import Base.

(** The content of the file and the position (c:47, 64, 86). *)
Record ofile := mkOfile { of_content : list N; of_pos : nat }.
(** The table of open descriptors or FILE objects; the variables of the class, where [None] is the value -1 or nullptr (h:45, 47);
    the function objects with the descriptors they have captured (c:181). *)
Record fstate := mkFs { fs_table : gmap nat ofile; fs_objs : list (option nat); fs_readers : list (option nat) }.
(** What a caller sees; [AThrow] is an exception, which the caller catches. *)
Inductive fanswer := AOk | AThrow | ASize (n : nat) | ABytes (bs : list N).
(** The operations; [o] and [p] are variables, [r] is a function object. [most] is the number of bytes that a single call of ::read returns at most. *)
Inductive fop :=
  | FNew                                  (* h:15 *)
  | FNewOpen (name : nat)                 (* h:16-17 *)
  | FNewMove (o : nat)                    (* h:31 *)
  | FMove (o p : nat)                     (* o = std::move(p), h:32 *)
  | FOpen (o name : nat)                  (* h:23-24 *)
  | FClose (o : nat)                      (* h:26, and the destructor h:42 *)
  | FRewind (o : nat)                     (* h:21 *)
  | FSize (o : nat)                       (* h:19 *)
  | FRead (o to_read most : nat)          (* h:38 *)
  | FGetReader (o : nat)                  (* h:40 *)
  | FReadWith (r to_read most : nat).     (* a call of the function object *)

Section source.
  (** The variant, the files by name ([None]: cannot be opened), and which unused descriptor the system chooses. *)
  Context (posix : bool) (files : nat -> option (list N)) (pick : gmap nat ofile -> nat).
  (** c:46-55, 122-129 *)
  Definition fs_open (s : fstate) (o name : nat) : option (fstate * fanswer) :=
    old ← fs_objs s !! o;
    match files name with
    | None => Some (s, AThrow)
    | Some content =>
        let fd := pick (fs_table s) in
        let t := <[fd := mkOfile content 0]> (fs_table s) in
        let t := match old with None => t | Some old => delete old t end in
        Some (mkFs t (<[o := Some fd]> (fs_objs s)) (fs_readers s), AOk)
    end.
  (** c:57-62, 131-136. Closing a FILE twice is undefined. *)
  Definition fs_close (s : fstate) (o : nat) : option (fstate * fanswer) :=
    old ← fs_objs s !! o;
    match old with
    | None => Some (s, AOk)
    | Some fd =>
        _ ← chk (posix || bool_decide (is_Some (fs_table s !! fd)));
        Some (mkFs (delete fd (fs_table s)) (<[o := None]> (fs_objs s)) (fs_readers s), AOk)
    end.
  (** c:64-69, 138-141 *)
  Definition fs_rewind (s : fstate) (o : nat) : option (fstate * fanswer) :=
    old ← fs_objs s !! o;
    match fd ← old; f ← fs_table s !! fd; Some (fd, f) with
    | None => if posix then Some (s, AThrow) else None
    | Some (fd, f) => Some (mkFs (<[fd := mkOfile (of_content f) 0]> (fs_table s)) (fs_objs s) (fs_readers s), AOk)
    end.
  (** c:71-82 and c:143-162. fstat returns 0 if it succeeds. The positions in c:147-154 are those of the same FILE. *)
  Definition fs_size (s : fstate) (o : nat) : option (fstate * fanswer) :=
    old ← fs_objs s !! o;
    match old with
    | None => Some (s, ASize 0)
    | Some fd =>
        if posix then
          let r := match fs_table s !! fd with Some _ => 0%Z | None => (-1)%Z end in
          if (r =? 0)%Z then Some (s, AThrow) else None (* buf is not initialised *)
        else
          f ← fs_table s !! fd;
          let x := of_pos f in
          let f1 := mkOfile (of_content f) (length (of_content f)) in
          let size := of_pos f1 in
          let f2 := mkOfile (of_content f) x in
          Some (mkFs (<[fd := f2]> (fs_table s)) (fs_objs s) (fs_readers s), ASize size)
    end.
  (** c:85-92 and c:165-171. ::read returns at least one byte unless none was asked for or the file has ended; fread returns as many as possible. *)
  Definition my_read (s : fstate) (fd : option nat) (to_read most : nat) : option (fstate * fanswer) :=
    match fd ← fd; f ← fs_table s !! fd; Some (fd, f) with
    | None => if posix then Some (s, AThrow) else None
    | Some (fd, f) =>
        let k := if posix then Nat.min to_read (Nat.max 1 most) else to_read in
        let bs := take k (drop (of_pos f) (of_content f)) in
        Some (mkFs (<[fd := mkOfile (of_content f) (of_pos f + length bs)]> (fs_table s)) (fs_objs s) (fs_readers s), ABytes bs)
    end.
  (** The operations *)
  Definition fs_step (s : fstate) (op : fop) : option (fstate * fanswer) :=
    match op with
    | FNew => Some (mkFs (fs_table s) (fs_objs s ++ [None]) (fs_readers s), AOk) (* c:20-22, 97-99 *)
    | FNewOpen name => (* c:24-32, 101-109: if open throws there is no object *)
        '(s', a) ← fs_open (mkFs (fs_table s) (fs_objs s ++ [None]) (fs_readers s)) (length (fs_objs s)) name;
        Some (match a with AThrow => s | _ => s' end, a)
    | FNewMove o => (* c:34-37, 111-114 *)
        fd ← fs_objs s !! o; Some (mkFs (fs_table s) (<[o := None]> (fs_objs s) ++ [fd]) (fs_readers s), AOk)
    | FMove o p => (* c:39-43, 116-120 *)
        fd ← fs_objs s !! p; objs ← wr (fs_objs s) o fd; Some (mkFs (fs_table s) (<[p := None]> objs) (fs_readers s), AOk)
    | FOpen o name => fs_open s o name
    | FClose o => fs_close s o
    | FRewind o => fs_rewind s o
    | FSize o => fs_size s o
    | FRead o to_read most => fd ← fs_objs s !! o; my_read s fd to_read most (* c:176-178 *)
    | FGetReader o => fd ← fs_objs s !! o; Some (mkFs (fs_table s) (fs_objs s) (fs_readers s ++ [fd]), AOk) (* c:180-185 *)
    | FReadWith r to_read most => fd ← fs_readers s !! r; my_read s fd to_read most (* c:182-184 *)
    end.
  (** A sequence of operations and its answers *)
  Fixpoint fs_run (s : fstate) (ops : list fop) : option (fstate * list fanswer) :=
    match ops with
    | [] => Some (s, [])
    | op :: ops => '(s, a) ← fs_step s op; '(s, l) ← fs_run s ops; Some (s, a :: l)
    end.
End source.
(** Before the first operation *)
Definition fs_start : fstate := mkFs ∅ [] [].
