(** Model of errors of agents in a round - /repo/esl/simulation/model.cpp:213-238. *)
From Verif Require Import Base Identity IdMap Communicator Simulation.

(** How a call ends for its caller. *)
Inductive ending (A : Type) := Returned (a : A) | Caught | Terminated | Anything.
Arguments Returned {A}.
Arguments Caught {A}.
Arguments Terminated {A}.
Arguments Anything {A}.
(** An exception reaches the caller if it is thrown in the thread of the caller (213-216); an exception that leaves the function of another thread
    (229-233) ends the program with [std::terminate]. *)
Definition ends {A} (in_thread : bool) (o : outcome A) : ending A :=
  match o with Ret a => Returned a | Throw => if in_thread then Terminated else Caught | UB => Anything end.
Section Errors.
Context {St : Type} (hash : identity -> Z) (shuffle : seed -> list message -> list message).
(** model.cpp:211-240: the agents act; with at most one thread in the thread of the caller, otherwise in threads of their own. *)
Inductive acting_ends (threads lower upper n : Z) (w : world St) : ending (progress (St:=St)) -> Prop :=
| alone : threads <= 1 -> acting_ends threads lower upper n w (ends false (act_phase hash shuffle lower upper n w))
| together chunks xs : 1 < threads -> thread_chunks threads (acting w lower) = Ret chunks -> interleaving (map (flat_map job) chunks) xs ->
    acting_ends threads lower upper n w (ends true (run_parts hash shuffle lower upper n (begin_round w lower) xs)).
End Errors.
