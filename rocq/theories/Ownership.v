(** Model of owners in a simulation: agents that process the transfers they receive -
    /repo/esl/economics/owner.hpp with /repo/esl/simulation/model.cpp and
    /repo/esl/computation/environment.cpp (Simulation.v). *)
From Verif Require Import Base Identity Communicator Simulation Inventory Messages.

Section Ownership.
(** Whatever else an owner keeps besides its inventory. *)
Context {X : Type}.
(** The private state of an owner (owner.hpp:57-62): inventory and the rest. *)
Definition owner_state : Type := (holdings * X)%type.
(** transfer.hpp:52-92: the transfer a message carries.  Message bodies are numbers in Communicator.v; [content]
    is any way of reading them. *)
Context (content : Z -> transfer).
Definition transfer_code : Z := kind_code Transfer.
(** owner.hpp:68-96: the callback of every owner.  An exception that leaves the callback ends the run; as the callbacks of
    Communicator.v always return, this is modelled as a returned time before the step, for which [process_message] does not
    return either. *)
Definition owner_callback (self : identity) : callback (@own owner_state) := fun m lower upper _ o =>
  match process_transfer self (content (m_body m)) (fst (fst o)) with
  | Some h => (((h, snd (fst o)), snd o), upper)
  | None => (o, lower - 1)
  end.
(** owner.hpp:99-102: its registration, with priority 50. *)
Definition owner_priority : Z := 50.
End Ownership.
