(** Model of an exchange in a simulation: the exchange of Exchange.v as an agent of Simulation.v -
    /repo/esl/economics/markets/centralized_exchange.hpp:427-550 with /repo/esl/simulation/model.cpp. *)
From Verif Require Import Base Identity Communicator Simulation Messages.
From Verif Require Exchange.

Section FirstCome.
(** The delay to a recipient (Exchange.v); what a message asks of the exchange, and the message with an answer of the exchange: bodies are
    numbers in Communicator.v, so these are any functions. *)
Context (delay : identity -> Z) (event_of : message -> Exchange.event) (post : Exchange.message -> message).
(** Whether the exchange asks to be activated at every time. *)
Context (watchful : bool).
(** What other agents keep. *)
Context {T : Type}.

(** The exchange, or what has come of it: when a callback throws, the run ends in C++; here nothing is done from then on. *)
Definition market := outcome Exchange.exchange.
(** The state of the exchange, or of another agent. *)
Inductive role := Hall (x : market) | Other (t : T).
(** centralized_exchange.hpp:440-550: all callbacks return the end of the step. *)
Definition exchange_callback : callback (@own role) := fun m lower upper _ o =>
  match fst o with
  | Hall (Ret x) =>
      match Exchange.handle delay lower (event_of m) x with
      | Ret (x', ms) => ((Hall (Ret x'), snd o ++ map post ms), upper)
      | Throw => ((Hall Throw, snd o), upper)
      | UB => ((Hall UB, snd o), upper)
      end
  | _ => (o, upper)
  end.
(** communicator.hpp:221-231, all with priority 0. *)
Definition enrolled (c : communicator (@own role)) (k : kind) : communicator (@own role) :=
  match register c (kind_code k) 0 exchange_callback with Ret c' => c' | _ => c end.
Definition exchange_communicator (random : bool) : communicator (@own role) :=
  fold_left enrolled [Logon; Logout; MarketDataRequest; NewOrderSingle; CancelOrder] (new_communicator random).
(** The exchange has no [act] of its own: agent.cpp:52-57, unless it is watchful. *)
Definition exchange_act : @action role := fun lower upper _ o => (o, if watchful then lower + 1 else upper).
Definition exchange_agent (random : bool) (x : Exchange.exchange) : agent role :=
  mk_agent (lock (exchange_communicator random)) exchange_act [] (Hall (Ret x), []).
End FirstCome.
Arguments role : clear implicits.
