(** Model of agents that are added to and removed from a simulation -
    /repo/esl/simulation/agent_collection.hpp:56-96, /repo/esl/simulation/agent_collection.cpp:33-60 and
    /repo/esl/computation/environment.cpp:60-82, 170-270, with Simulation.v. *)
From Verif Require Import Base Identity IdMap Communicator Simulation.

(** ** The lists of agents added and removed, environment.hpp:57-64: [std::vector]. *)
(** The elements, how many there is room for, and how often the elements have been moved to other memory. *)
Record vector := mk_vector { elements : list identity; capacity : nat; moves : nat }.
Definition empty_vector : vector := mk_vector [] 0 0.
(** [push_back]; without room the elements move to memory for [grow] of the capacity, which libraries choose differently. *)
Definition push_back (grow : nat -> nat) (v : vector) (x : identity) : vector :=
  if (length (elements v) <? capacity v)%nat then mk_vector (elements v ++ [x]) (capacity v) (moves v)
  else mk_vector (elements v ++ [x]) (grow (capacity v)) (S (moves v)).
(** [clear] keeps the memory. *)
Definition clear (v : vector) : vector := mk_vector [] (capacity v) (moves v).

Section Lists.
Context (grow : nat -> nat).
(** What is undefined: with [standard], everything that the C++ standard leaves undefined; without, only reading elements from memory
    that they have been moved out of. *)
Context (standard : bool).
(** environment.cpp:63-66 and 79-82, [for(const auto &a: v) { v.push_back(a); }] (170-181 push): from position [k] on, with [n] of the positions
    that there were at the beginning to go.  The elements are read where they were at the beginning, after [start] moves.  By the standard,
    [push_back] invalidates the end that the loop compares with. *)
Fixpoint announce (n k start : nat) (v : vector) : outcome vector :=
  match n with
  | O => Ret v
  | S n' =>
      if (moves v =? start)%nat then
        match nth_error (elements v) k with
        | None => UB
        | Some x => if standard then UB else announce n' (S k) start (push_back grow v x)
        end
      else UB
  end.
Definition announce_all (v : vector) : outcome vector := announce (length (elements v)) 0 (moves v) v.
(** environment.cpp:60-69 [activate]: the list and the number returned. *)
Definition activate (v : vector) : outcome (vector * Z) :=
  match announce_all v with Ret v' => Ret (clear v', Z.of_nat (length (elements v))) | Throw => Throw | UB => UB end.
(** environment.cpp:74-82 [deactivate]: the list is not cleared. *)
Definition deactivate (v : vector) : outcome (vector * Z) :=
  match announce_all v with Ret v' => Ret (v', Z.of_nat (length (elements v))) | Throw => Throw | UB => UB end.
End Lists.

Section Population.
Context {St : Type} (grow : nat -> nat) (standard : bool).
Context (hash : identity -> Z) (shuffle : seed -> list message -> list message).
(** The world with the lists of its environment. *)
Record sim := mk_sim { s_world : world St; s_activated : vector; s_deactivated : vector }.
(** agent_collection.hpp:76-88 [create] and agent_collection.cpp:40-45 [activate], for an agent that is constructed;
    agent_collection.cpp:47-52 [deactivate].  Wake-up times stay.  The set of all identities ([global_agents_]) is not read and left out. *)
Definition insert_agent (w : world St) (i : identity) (a : agent St) : world St := mk_world (im_emplace i a (agents w)) (wake_up_times w) (w_end w) (w_sample w).
Definition remove_agent (w : world St) (i : identity) : world St := mk_world (im_erase i (agents w)) (wake_up_times w) (w_end w) (w_sample w).
Inductive change := Create (i : identity) (a : agent St) | Remove (i : identity).
Definition apply_change (s : sim) (c : change) : sim :=
  match c with
  | Create i a => mk_sim (insert_agent (s_world s) i a) (push_back grow (s_activated s) i) (s_deactivated s)
  | Remove i => mk_sim (remove_agent (s_world s) i) (s_activated s) (push_back grow (s_deactivated s) i)
  end.
(** What agents add and remove while they act, at a time and in a round, as any function of the world they leave.  The agents that act in a
    round are collected before (model.cpp:193-208), and no agent's work reads the collection, so that the changes can be made after the
    work of all agents of the round. *)
Context (changes : Z -> Z -> world St -> list change).

(** model.cpp:102-247, one round with one thread. *)
Definition round_of (lower upper n : Z) (s : sim) : outcome (sim * Z) :=
  match act_phase hash shuffle lower upper n (s_world s) with
  | Ret p =>
      let s1 := fold_left apply_change (changes lower n (p_world p)) (mk_sim (p_world p) (s_activated s) (s_deactivated s)) in
      match finish_round (mk_progress (s_world s1) (p_pending p) (p_first p)) with
      | Ret (w', first) => Ret (mk_sim w' (s_activated s1) (s_deactivated s1), first)
      | Throw => Throw
      | UB => UB
      end
  | Throw => Throw
  | UB => UB
  end.
Fixpoint rounds_of (fuel : nat) (lower upper n : Z) (s : sim) : option (outcome (sim * Z)) :=
  match fuel with
  | O => None
  | S fuel' =>
      match round_of lower upper n s with
      | Ret (s', first) => if lower >=? first then rounds_of fuel' lower upper (w32 (n + 1)) s' else Some (Ret (s', first))
      | Throw => Some Throw
      | UB => Some UB
      end
  end.
(** model.cpp:90-255. *)
Definition step_of (fuel : nat) (lower upper : Z) (s : sim) : option (outcome (sim * Z)) :=
  if Interval.ti_empty lower upper then Some Throw else rounds_of fuel lower upper 0 s.
(** environment.cpp:195-197, 222-224. *)
Definition announce_changes (s : sim) : outcome sim :=
  match activate grow standard (s_activated s) with
  | Ret (v, _) =>
      match deactivate grow standard (s_deactivated s) with
      | Ret (u, _) => Ret (mk_sim (s_world s) v u)
      | Throw => Throw
      | UB => UB
      end
  | Throw => Throw
  | UB => UB
  end.
(** environment.cpp:202-253 [run], after [initialize], with the times at which the model steps. *)
Fixpoint run_of (fuel : nat) (lower : Z) (s : sim) : option (outcome (sim * list Z)) :=
  match fuel with
  | O => None
  | S fuel' =>
      match announce_changes s with
      | Ret s0 =>
          match step_of fuel lower (w_end (s_world s)) s0 with
          | Some (Ret (s', next)) =>
              if next <? w_end (s_world s')
              then match run_of fuel' next s' with
                   | Some (Ret (s2, ts)) => Some (Ret (s2, lower :: ts))
                   | r => r
                   end
              else Some (Ret (s', [lower]))
          | Some Throw => Some Throw
          | Some UB => Some UB
          | None => None
          end
      | Throw => Some Throw
      | UB => Some UB
      end
  end.
(** environment.cpp:187-198 [environment::step]: [time] is [model::time], which nothing in the library writes after construction
    (model.cpp:45). *)
Definition environment_step (fuel : nat) (time : Z) (s : sim) : option (outcome sim) :=
  if time <? w_end (s_world s) then
    match step_of fuel time (w_end (s_world s)) s with
    | Some (Ret (s', _)) => Some (announce_changes s')
    | Some Throw => Some Throw
    | Some UB => Some UB
    | None => None
    end
  else Some (announce_changes s).
End Population.
Arguments sim : clear implicits.
Arguments change : clear implicits.

(** ** Looking up agents, agent_collection.cpp:54-60 [operator[]]: the map makes an entry with a null pointer ([None]) if there is none. *)
Definition look_up {A} (i : identity) (m : idmap (option A)) : option A * idmap (option A) :=
  match im_find i m with Some a => (a, m) | None => (None, im_set i None m) end.
(** environment.cpp:144-152, one message to [i]: writing to a null pointer is undefined. *)
Definition put_in_inbox {A} (put : A -> A) (i : identity) (m : idmap (option A)) : outcome (idmap (option A)) :=
  match im_find i m with
  | None => Throw
  | Some None => UB
  | Some (Some a) => Ret (im_set i (Some (put a)) m)
  end.
