(** src/buffered_asynchronous_reader.cpp as a transition system of two threads: the one that uses the
    object and the worker. Line numbers refer to that file. A step goes from one point at which the
    threads can get into each other's way to the next; what is done while the mutex is held, between
    these points, is one step. Offsets are unbounded numbers; they stay below 6 * block_size, so that
    this is exact if that is less than 2^32. Moving the object is left out. *)
From Verif Require Import Base.

Inductive thread := Main | Worker.
(** Where the using thread is: in the constructor (66-139), not in any function of the object, in read
    (141-175) of [sz] bytes before the mutex is acquired (145), at the predicate (150) with the mutex,
    with the mutex after the predicate was false, waiting (147), woken up but without the mutex, in the destructor (32-41) before it acquires the mutex (34),
    before it notifies (37), before the worker is joined (38), or the object is gone. *)
Inductive mpc := MCtor | MIdle | MLock (sz : nat) | MCheck (sz : nat) | MBlock (sz : nat) | MSleep (sz : nat) | MWake (sz : nat) | MDtor | MNotify | MJoin | MDead.
(** Where the worker is: before it acquires the mutex (87), at the predicate (93) with the mutex, waiting (90), woken up
    but without the mutex, in byte_source (102), behind it with the bytes read but without the mutex (103), the
    same with the mutex (108), in the handler (134) after byte_source has thrown, before it notifies (135), or has ended. *)
Inductive wpc := WStart | WCheck | WSleep | WWake | WRead | WGot (bs : list N) | WStore (bs : list N) | WThrow | WThrown | WDone.

(** :15-30; whether there is an exception is all that is kept of it (26). *)
Record rd := mkRd {
  r_buf : list N; r_begin : nat; r_end : nat; r_eof : bool; r_term : bool; r_exc : bool;
  r_lock : option thread; r_m : mpc; r_w : wpc }.

Section Reader.
  (** block_size *)
  Context (B : nat).
  (** :13 *)
  Definition ring : nat := 5 * B.

  (** :73-85: the state after the worker was started; [buf] is the uninitialised memory. *)
  Definition reader_init (buf : list N) : rd := mkRd buf 0 0 false false false (Some Main) MCtor WStart.

  (** :43-49 *)
  Definition in_buffer (s : rd) : nat := if r_begin s <=? r_end s then r_end s - r_begin s else ring - (r_begin s - r_end s).

  (** Reading and writing of memory as memcpy and the calls of byte_source and read need it (102, 121, 125, 127, 163); [None] is out of bounds. *)
  Definition slice (buf : list N) (p len : nat) : option (list N) :=
    if p + len <=? length buf then Some (take len (drop p buf)) else None.
  Definition overwrite (buf : list N) (p : nat) (bs : list N) : option (list N) :=
    if p + length bs <=? length buf then Some (take p buf ++ bs ++ drop (p + length bs) buf) else None.
  Definition memcpy (buf : list N) (dst src len : nat) : option (list N) := bs ← slice buf src len; overwrite buf dst bs.

  (** :118-129 *)
  Definition store (buf : list N) (data_end bytes_read : nat) : option (list N * nat) :=
    let new_data_end := data_end + bytes_read in
    '(buf, new_data_end) ← (if ring <=? new_data_end then
        let new_data_end := new_data_end - ring in buf ← memcpy buf 0 ring new_data_end; Some (buf, new_data_end)
      else Some (buf, new_data_end));
    buf ← (if data_end <? B then
        if new_data_end <? B then memcpy buf (ring + data_end) data_end bytes_read
        else memcpy buf (ring + data_end) data_end (B - data_end)
      else Some buf);
    Some (buf, new_data_end).

  (** notify_one (37, 114, 131, 135, 169): at most one thread waits for either condition. *)
  Definition wake_m (m : mpc) : mpc := match m with MSleep sz => MWake sz | m => m end.
  Definition wake_w (w : wpc) : wpc := match w with WSleep => WWake | w => w end.

  (** What can be seen from outside: calls of read and of the destructor, what they end with (141-175, 32-41), what byte_source does (102). *)
  Inductive ev :=
    | Tau | Call (sz : nat) | TooLarge (sz : nat) | Block (p : nat) (bs : list N) | Null (sz : nat) | Throw (sz : nat)
    | Destroy | Destroyed
    | Deliver (bs : list N) | SrcEnd | SrcThrow
    | Scribble | Spurious.

  (** :102: byte_source may write to the [B] bytes it is given, also before it returns, and returns at most [B]. *)
  Definition scribbled (buf buf' : list N) (p : nat) : Prop :=
    length buf' = length buf /\ forall i, ~ p <= i < p + B -> buf' !! i = buf !! i.

  (** :66-175 *)
  Inductive step : rd -> ev -> rd -> Prop :=
    (* constructor: the mutex is released at its end (139) *)
    | st_ctor buf b e eof tm ex w :
        step (mkRd buf b e eof tm ex (Some Main) MCtor w) Tau (mkRd buf b e eof tm ex None MIdle w)
    (* :141-143 *)
    | st_too_large buf b e eof tm ex lk w sz : B < sz ->
        step (mkRd buf b e eof tm ex lk MIdle w) (TooLarge sz) (mkRd buf b e eof tm ex lk MIdle w)
    | st_call buf b e eof tm ex lk w sz : sz <= B ->
        step (mkRd buf b e eof tm ex lk MIdle w) (Call sz) (mkRd buf b e eof tm ex lk (MLock sz) w)
    (* :145 *)
    | st_lock buf b e eof tm ex w sz :
        step (mkRd buf b e eof tm ex None (MLock sz) w) Tau (mkRd buf b e eof tm ex (Some Main) (MCheck sz) w)
    (* :147-152: the predicate is evaluated; then the thread goes to sleep and releases the mutex *)
    | st_wait buf b e eof tm ex lk w sz s : s = mkRd buf b e eof tm ex lk (MCheck sz) w ->
        eof = false -> in_buffer s < sz -> ex = false ->
        step s Tau (mkRd buf b e eof tm ex lk (MBlock sz) w)
    | st_sleep buf b e eof tm ex lk w sz :
        step (mkRd buf b e eof tm ex lk (MBlock sz) w) Tau (mkRd buf b e eof tm ex None (MSleep sz) w)
    | st_spurious buf b e eof tm ex lk w sz :
        step (mkRd buf b e eof tm ex lk (MSleep sz) w) Spurious (mkRd buf b e eof tm ex lk (MWake sz) w)
    | st_relock buf b e eof tm ex w sz :
        step (mkRd buf b e eof tm ex None (MWake sz) w) Tau (mkRd buf b e eof tm ex (Some Main) (MCheck sz) w)
    (* :154-157 *)
    | st_throw buf b e eof tm lk w sz :
        step (mkRd buf b e eof tm true lk (MCheck sz) w) (Throw sz) (mkRd buf b e true tm true None MIdle w)
    (* :159-170 *)
    | st_block buf b e eof tm lk w sz bs s : s = mkRd buf b e eof tm false lk (MCheck sz) w ->
        sz <= in_buffer s -> slice buf b sz = Some bs ->
        step s (Block b bs) (mkRd buf (if ring <=? b + sz then b + sz - ring else b + sz) e eof tm false None MIdle (wake_w w))
    (* :171-174 *)
    | st_null buf b e tm lk w sz s : s = mkRd buf b e true tm false lk (MCheck sz) w ->
        in_buffer s < sz -> step s (Null sz) (mkRd buf b e true tm false None MIdle w)
    (* :32-41; the assignment under the mutex (33-36) is one step *)
    | st_destroy buf b e eof tm ex lk w :
        step (mkRd buf b e eof tm ex lk MIdle w) Destroy (mkRd buf b e eof tm ex lk MDtor w)
    | st_term buf b e eof tm ex w :
        step (mkRd buf b e eof tm ex None MDtor w) Tau (mkRd buf b e eof true ex None MNotify w)
    | st_notify buf b e eof tm ex lk w :
        step (mkRd buf b e eof tm ex lk MNotify w) Tau (mkRd buf b e eof tm ex lk MJoin (wake_w w))
    | st_join buf b e eof tm ex lk :
        step (mkRd buf b e eof tm ex lk MJoin WDone) Destroyed (mkRd buf b e eof tm ex lk MDead WDone)
    (* worker, :87 *)
    | st_wstart buf b e eof tm ex m :
        step (mkRd buf b e eof tm ex None m WStart) Tau (mkRd buf b e eof tm ex (Some Worker) m WCheck)
    (* :90-95; what the predicate depends on changes only under the mutex, so that this is one step *)
    | st_wwait buf b e eof ex lk m s : s = mkRd buf b e eof false ex lk m WCheck ->
        ring - in_buffer s < 2 * B ->
        step s Tau (mkRd buf b e eof false ex None m WSleep)
    | st_wspurious buf b e eof tm ex lk m :
        step (mkRd buf b e eof tm ex lk m WSleep) Spurious (mkRd buf b e eof tm ex lk m WWake)
    | st_wrelock buf b e eof tm ex m :
        step (mkRd buf b e eof tm ex None m WWake) Tau (mkRd buf b e eof tm ex (Some Worker) m WCheck)
    (* :97-99 *)
    | st_wterm buf b e eof ex lk m :
        step (mkRd buf b e eof true ex lk m WCheck) Tau (mkRd buf b e eof true ex None m WDone)
    (* :101 *)
    | st_wunlock buf b e eof ex lk m s : s = mkRd buf b e eof false ex lk m WCheck ->
        2 * B <= ring - in_buffer s ->
        step s Tau (mkRd buf b e eof false ex None m WRead)
    (* :102 *)
    | st_scribble buf buf' b e eof tm ex lk m : scribbled buf buf' e ->
        step (mkRd buf b e eof tm ex lk m WRead) Scribble (mkRd buf' b e eof tm ex lk m WRead)
    | st_deliver buf buf' b e eof tm ex lk m bs : bs <> [] -> length bs <= B -> overwrite buf e bs = Some buf' ->
        step (mkRd buf b e eof tm ex lk m WRead) (Deliver bs) (mkRd buf' b e eof tm ex lk m (WGot bs))
    | st_src_end buf b e eof tm ex lk m :
        step (mkRd buf b e eof tm ex lk m WRead) SrcEnd (mkRd buf b e eof tm ex lk m (WGot []))
    | st_src_throw buf b e eof tm ex lk m :
        step (mkRd buf b e eof tm ex lk m WRead) SrcThrow (mkRd buf b e eof tm ex lk m WThrow)
    (* :103 *)
    | st_wlock buf b e eof tm ex m bs :
        step (mkRd buf b e eof tm ex None m (WGot bs)) Tau (mkRd buf b e eof tm ex (Some Worker) m (WStore bs))
    (* :108-110 *)
    | st_wterm2 buf b e eof ex lk m bs :
        step (mkRd buf b e eof true ex lk m (WStore bs)) Tau (mkRd buf b e eof true ex None m WDone)
    (* :112-116 *)
    | st_weof buf b e eof ex lk m :
        step (mkRd buf b e eof false ex lk m (WStore [])) Tau (mkRd buf b e true false ex None (wake_m m) WDone)
    (* :118-131; the mutex is kept *)
    | st_wstore buf buf' b e e' eof ex lk m bs : bs <> [] -> store buf e (length bs) = Some (buf', e') ->
        step (mkRd buf b e eof false ex lk m (WStore bs)) Tau (mkRd buf' b e' eof false ex lk (wake_m m) WCheck)
    (* :134, without the mutex *)
    | st_wthrow buf b e eof tm ex lk m :
        step (mkRd buf b e eof tm ex lk m WThrow) Tau (mkRd buf b e eof tm true lk m WThrown)
    (* :135 *)
    | st_wthrown buf b e eof tm ex lk m :
        step (mkRd buf b e eof tm ex lk m WThrown) Tau (mkRd buf b e eof tm ex lk (wake_m m) WDone).

  (** Executions of the threads (66-175) with what happens in them. *)
  Inductive run : rd -> list ev -> rd -> Prop :=
    | run_nil s : run s [] s
    | run_snoc s evs s' ev s'' : run s evs s' -> step s' ev s'' -> run s (evs ++ [ev]) s''.
End Reader.
