(** Model of the programs that generate files: src/generate_constant_vector.cpp ([c:]), src/generate_test_queries.cpp ([q:]),
    src/generate_random_node_list.cpp ([n:]) and src/generate_random_source_times.cpp ([t:]).

    Arguments are texts as in TextModel, files are lists of bytes. [Throw] means that the program stops with an error message and
    writes no file, [None] is undefined behaviour. [open] gives the contents of a file by its name, if there is such a file. There is always
    enough memory. The random number generator is arbitrary: [seed] gives its first state, and [draw g b] is the result of
    std::uniform_int_distribution<int>(0, b) together with the next state. *)
From Verif Require Import Base ProtobufModel VectorIoModel VectorToolModel ChFileModel.

(** c:23-24, q:24-26, n:26-31, t:26-30: std::stoul gives 64 bits, of which the assignment keeps 32 *)
Definition stoul (arg : list N) : result N :=
  match stoull arg with Throw => Throw | Ret x => Ret (Z.to_N (x mod 2 ^ 32)) end.
(** vector_io.h:15-22 for vector<unsigned> *)
Definition save_numbers (l : list N) : list N := save_vector (le_bytes 4) l.

(** c:23-36 *)
Definition generate_constant_vector (size value : list N) : result (list N) :=
  match stoul size with Throw => Throw | Ret size =>
  match stoul value with Throw => Throw | Ret value => Ret (save_numbers (replicate (N.to_nat size) value)) end end.

(** q:37, n:38, t:38: the largest number of the distribution. The conversion of [count-1] to int makes it negative if [count] is 0 or more than
    2^31; std::uniform_int_distribution<int>(0, b) requires that [b] is not negative. *)
Definition distribution (count : N) : option N :=
  let b := ((count + (2 ^ 32 - 1)) mod 2 ^ 32)%N in
  if (b <? 2 ^ 31)%N then Some b else None.

Section random.
Context {G : Type} (seed : N -> G) (draw : G -> N -> N * G) (open : list N -> option (list N)).

(** n:39-41, t:39-41 *)
Fixpoint draw_all (b : N) (count : nat) (g : G) : list N * G :=
  match count with
  | O => ([], g)
  | S count => let '(x, g) := draw g b in let '(v, g) := draw_all b count g in (x :: v, g)
  end.
(** q:31-32, 39-42: a source, then a target *)
Fixpoint draw_queries (b : N) (count : nat) (g : G) : list N * list N * G :=
  match count with
  | O => ([], [], g)
  | S count => let '(x, g) := draw g b in let '(y, g) := draw g b in let '(s, t, g) := draw_queries b count g in (x :: s, y :: t, g)
  end.
(** q:24-49 *)
Definition generate_test_queries (node_count query_count random_seed : list N) : option (result (list N * list N)) :=
  match stoul node_count, stoul query_count, stoul random_seed with
  | Ret n, Ret k, Ret r =>
      b ← distribution n;
      let '(source, target, _) := draw_queries b (N.to_nat k) (seed r) in
      Some (Ret (save_numbers source, save_numbers target))
  | _, _, _ => Some Throw
  end.
(** n:25-29, t:25-29: a number, or if it is none the name of a vector *)
Definition number_or_size (arg : list N) : result N :=
  match stoul arg with
  | Ret n => Ret n
  | Throw =>
      match open arg with
      | None => Throw
      | Some file => match load_vector 4 le_word file with Throw => Throw | Ret v => Ret (N.of_nat (length v) mod 2 ^ 32)%N end
      end
  end.
(** n:25-47 *)
Definition generate_random_node_list (node_count query_count random_seed : list N) : option (result (list N)) :=
  match number_or_size node_count, stoul query_count, stoul random_seed with
  | Ret n, Ret k, Ret r => b ← distribution n; Some (Ret (save_numbers (fst (draw_all b (N.to_nat k) (seed r)))))
  | _, _, _ => Some Throw
  end.
(** t:31 *)
Definition load_period (name : list N) : result N :=
  match open name with None => Throw | Some file => load_value 4 le_word file end.
(** t:25-47 *)
Definition generate_random_source_times (time_count random_seed period_file : list N) : option (result (list N)) :=
  match number_or_size time_count, stoul random_seed, load_period period_file with
  | Ret k, Ret r, Ret p => b ← distribution p; Some (Ret (save_numbers (fst (draw_all b (N.to_nat k) (seed r)))))
  | _, _, _ => Some Throw
  end.
End random.
