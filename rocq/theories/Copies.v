(** Model of copying agents - /repo/esl/agent.cpp:44-50, /repo/esl/agent.hpp:64,
    /repo/esl/interaction/communicator.hpp:126-159, /repo/esl/data/producer.hpp. *)
From Verif Require Import Base Identity Multimap Communicator.

Section Agents.
(** What a class derived from agent adds, and what its callbacks may change. *)
Context {A : Type}.
(** The parts of an agent.  [a_outputs] are its outputs: the name, and the streams attached. *)
Record agent := mk_agent {
  a_identity : identity; a_communicator : communicator A; a_inbox : list (Z * message); a_outbox : list message;
  a_outputs : list (list Z * list Z); a_derived : A }.
(** agent.cpp:44-50: the base classes are constructed afresh, but for identity and schedule; a derived class whose copy
    constructor is the implicit one copies what it adds. *)
Definition copy (a : agent) : agent :=
  mk_agent (a_identity a) (new_communicator (random (a_communicator a))) [] [] [] (a_derived a).
(** A message delivered (environment.cpp:149-150); the inbox is ordered by time. *)
Definition deliver (m : message) (a : agent) : agent :=
  mk_agent (a_identity a) (a_communicator a) (mm_insert (m_received m) m (a_inbox a)) (a_outbox a) (a_outputs a) (a_derived a).
(** communicator.cpp:87-141, on this agent: its state afterwards and the time of its next event. *)
Definition respond (shuffle : seed -> list message -> list message) (lower upper : Z) (s : seed) (a : agent) : outcome (A * Z) :=
  process_messages (a_communicator a) shuffle lower upper s (a_inbox a) (a_derived a).
(** What a constructor does: registering callbacks in turn (communicator.hpp:221-265). *)
Fixpoint enlist (rs : list (Z * Z * callback A)) (c : communicator A) : outcome (communicator A) :=
  match rs with
  | [] => Ret c
  | (type, priority, f) :: rs' => match register c type priority f with Ret c' => enlist rs' c' | Throw => Throw | UB => UB end
  end.
(** An agent made with an identity, a schedule and these callbacks. *)
Definition construct (i : identity) (schedule : bool) (rs : list (Z * Z * callback A)) (d : A) : outcome agent :=
  match enlist rs (new_communicator schedule) with Ret c => Ret (mk_agent i c [] [] [] d) | Throw => Throw | UB => UB end.
(** Registering callbacks with an agent that exists. *)
Definition register_again (rs : list (Z * Z * callback A)) (a : agent) : outcome agent :=
  match enlist rs (a_communicator a) with
  | Ret c => Ret (mk_agent (a_identity a) c (a_inbox a) (a_outbox a) (a_outputs a) (a_derived a)) | Throw => Throw | UB => UB end.
(** producer.hpp:54-62: a second output of a name is not entered. *)
Definition create_output (name : list Z) (a : agent) : agent :=
  let outputs := if existsb (fun o => id_eqb (fst o) name) (a_outputs a) then a_outputs a else a_outputs a ++ [(name, [])] in
  mk_agent (a_identity a) (a_communicator a) (a_inbox a) (a_outbox a) outputs (a_derived a).
(** producer.hpp:40-47. *)
Definition add_output_stream (name : list Z) (s : Z) (a : agent) : outcome agent :=
  if existsb (fun o => id_eqb (fst o) name) (a_outputs a)
  then Ret (mk_agent (a_identity a) (a_communicator a) (a_inbox a) (a_outbox a)
              (map (fun o => if id_eqb (fst o) name then (fst o, snd o ++ [s]) else o) (a_outputs a)) (a_derived a))
  else Throw.
End Agents.
Arguments agent : clear implicits.
