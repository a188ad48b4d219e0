(** Model of agents that create agents in a round with several threads - /repo/esl/simulation/model.cpp:217-238 with
    /repo/esl/simulation/agent_collection.hpp:76-90, /repo/esl/simulation/agent_collection.cpp:40-45 and /repo/esl/simulation/identity.hpp:332-342. *)
From Verif Require Import Base Identity Simulation.

(** ** What the threads access. *)
(** The number of children of an entity, the sets of all and of local agents, the list of agents added, the times of wake-up with the first event, and what
    belongs to one agent. *)
Inductive location := Counter (parent : identity) | Everyone | Locals | Added | Times | Own (i : identity).
Record access := mk_access { c_location : location; c_writes : bool; c_locked : bool }.
(** agent_collection.hpp:79-87: the counter is read and increased (identity.hpp:337-338); agent_collection.cpp:42-44 and environment.cpp:173-176
    write the collections.  No lock is taken. *)
Definition creation (parent : identity) : list access :=
  [mk_access (Counter parent) false false; mk_access (Counter parent) true false;
   mk_access Everyone true false; mk_access Locals true false; mk_access Added true false].
(** model.cpp:114-180: the agent acts and creates agents as children of the given entities; its wake-up time is written under the lock (145);
    its inbox is trimmed. *)
Definition job_accesses (creates : identity -> list identity) (i : identity) : list access :=
  mk_access (Own i) true false :: flat_map creation (creates i) ++ [mk_access Times true true].
(** model.cpp:226-233: a thread does the jobs of its agents. *)
Definition thread_accesses (creates : identity -> list identity) (chunk : list identity) : list access := flat_map (job_accesses creates) chunk.

(** ** What they do to the counter, if memory were to behave: every access happens at once. *)
(** identity.hpp:337 reads the digit; 338 reads the counter and writes it. *)
Inductive action := Digit (thread : nat) (parent : identity) | Fetch (thread : nat) (parent : identity) | Store (thread : nat) (parent : identity).
Definition create_actions (thread : nat) (parent : identity) : list action := [Digit thread parent; Fetch thread parent; Store thread parent].
(** A thread creates children of the given entities one after the other. *)
Definition thread_actions (thread : nat) (parents : list identity) : list action := flat_map (create_actions thread) parents.
Fixpoint all_actions (thread : nat) (programs : list (list identity)) : list (list action) :=
  match programs with [] => [] | p :: programs' => thread_actions thread p :: all_actions (S thread) programs' end.
(** The counters; the value each thread has read; the identities made. *)
Record memory := mk_memory { counters : identity -> Z; read : nat -> Z; made : list identity }.
Definition set_counter (q : identity) (c : Z) (f : identity -> Z) : identity -> Z := fun x => if id_eqb x q then c else f x.
Definition set_read (t : nat) (c : Z) (f : nat -> Z) : nat -> Z := fun x => if (x =? t)%nat then c else f x.
Definition act (m : memory) (a : action) : memory :=
  match a with
  | Digit _ q => mk_memory (counters m) (read m) (made m ++ [q ++ [counters m q]])
  | Fetch t q => mk_memory (counters m) (set_read t (counters m q) (read m)) (made m)
  | Store t q => mk_memory (set_counter q (w64 (read m t + 1)) (counters m)) (read m) (made m)
  end.
Definition acts (m : memory) (l : list action) : memory := fold_left act l m.
(** Threads interleave in any way. *)
Inductive mixed {A} : list (list A) -> list A -> Prop :=
| mixed_done ts : Forall (fun t => t = []) ts -> mixed ts []
| mixed_one ts1 x t ts2 xs : mixed (ts1 ++ t :: ts2) xs -> mixed (ts1 ++ (x :: t) :: ts2) (x :: xs).
Definition start (c : identity -> Z) : memory := mk_memory c (fun _ => 0) [].
