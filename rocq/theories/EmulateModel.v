(** Model of src/emulate_gcc_builtin.h ([e:]), which replaces functions of the compiler if ROUTING_KIT_NO_GCC_EXTENSIONS is defined, and of the parallel
    customization (src/customizable_contraction_hierarchy.cpp:807-945) with the emulated compare-and-swap. *)
From Verif Require Import Base CchModel CchBuildModel CchParallelModel.

(** ** Bits *)
(** e:14-16: the loop; [i] is 64 bits wide. The number of rounds is bounded by [fuel]. *)
Fixpoint popcount_loop (fuel : nat) (x i : N) (n : nat) : option nat :=
  if (i =? 0)%N then Some n else
  match fuel with
  | O => None
  | S fuel => popcount_loop fuel x (N.shiftl i 1 mod 2 ^ 64) (if (N.land x i =? 0)%N then n else S n)
  end.
(** e:12-18 *)
Definition emulated_popcountll (x : N) : option nat := popcount_loop 64 x 1 0.
(** e:21-23; [x] is 32 bits wide *)
Definition emulated_popcount (x : N) : option nat := emulated_popcountll x.
(** e:28-30 *)
Fixpoint ffs_loop (fuel : nat) (x i : N) (n : nat) : option nat :=
  if (i =? 0)%N then Some 0 else
  match fuel with
  | O => None
  | S fuel => if (N.land x i =? 0)%N then ffs_loop fuel x (N.shiftl i 1 mod 2 ^ 64) (S n) else Some n
  end.
(** e:26-32 *)
Definition emulated_ffsll (x : N) : option nat := ffs_loop 64 x 1 1.

(** ** Compare-and-swap with a mutex *)
(** e:35-49: where a thread is in the function: not in it (or waiting for the mutex), behind the lock (e:37), found that the value is the expected one (e:41),
    in front of the unlock by the destructor of the guard (e:45, 47). The mutex is static, there is one for all variables of a type.
    The result of the function is not kept: behind the unlock the thread goes on with the next operation after a success, and loads the value again (812) after a failure. *)
Inductive crit := COut | CIn | CEqual | CExit.
(** A thread of CchParallelModel; while it is in the function its phase remains the one in front of the compare-and-swap. *)
Definition lthr : Type := thr * crit.
(** The thread is about to call the function (811). *)
Definition calls (t : thr) : bool :=
  match prog t, ph t with MRelax _ _ _ _ :: _, P3 y z => N.ltb y z | _, _ => false end.
(** One step of thread [i]; [lock] is the owner of the mutex. All steps that are not in the function are those of CchParallelModel. *)
Definition locked_step (i : nat) (lock : option nat) (m : metric) (tc : lthr) : option (option nat * metric * lthr) :=
  let '(t, c) := tc in
  match c with
  | COut =>
      if calls t then match lock with None => Some (Some i, m, (t, CIn)) | Some _ => None end
      else '(m, t) ← thread_step m t; Some (lock, m, (t, COut))
  | CIn =>
      match prog t, ph t with
      | MRelax d _ _ tp :: _, P3 y z =>
          cur ← rd m d tp;
          if N.eqb cur z then Some (lock, m, (t, CEqual)) else Some (lock, m, (mkThr (prog t) (P2 y), CExit))
      | _, _ => None
      end
  | CEqual =>
      match prog t, ph t with
      | MRelax d _ _ tp :: r, P3 y _ => m ← st m d tp y; Some (lock, m, (mkThr r P0, CExit))
      | _, _ => None
      end
  | CExit => Some (None, m, (t, COut))
  end.
(** Like [config] of CchParallelModel, with the mutex. *)
Record lconfig := mkLconfig { l_lock : option nat; l_mem : metric; l_pend : list (list mop); l_ths : list lthr; l_stages : list (list (list mop)) }.
Definition lidle (t : lthr) : Prop := idle (fst t) /\ snd t = COut.
(** 919-937 *)
Inductive lstep : lconfig -> lconfig -> Prop :=
  | lstep_thread i t lock' m' t' cf : l_ths cf !! i = Some t -> locked_step i (l_lock cf) (l_mem cf) t = Some (lock', m', t') ->
      lstep cf (mkLconfig lock' m' (l_pend cf) (<[i := t']> (l_ths cf)) (l_stages cf))
  | lstep_take i t before chunk after cf : l_ths cf !! i = Some t -> lidle t -> l_pend cf = before ++ chunk ++ after -> chunk <> [] ->
      lstep cf (mkLconfig (l_lock cf) (l_mem cf) (before ++ after) (<[i := (mkThr (concat chunk) P0, COut)]> (l_ths cf)) (l_stages cf))
  | lstep_barrier p rest cf : l_pend cf = [] -> Forall lidle (l_ths cf) -> l_stages cf = p :: rest ->
      lstep cf (mkLconfig (l_lock cf) (l_mem cf) p (l_ths cf) rest).
Definition lfinal (cf : lconfig) : Prop := l_pend cf = [] /\ Forall lidle (l_ths cf) /\ l_stages cf = [].
(** 907-945, the mutex is free at the beginning *)
Definition lstart (c : cch) (lv : levels) (w : list N) (threads : nat) (m : metric) : option lconfig :=
  cf ← start c lv w threads m;
  Some (mkLconfig None (mem cf) (pend cf) ((fun t => (t, COut)) <$> ths cf) (stages cf)).
