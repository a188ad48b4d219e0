(** Model of a Walrasian market in a simulation: the price setter of Markets.v among participants that answer its quotes, as agents of
    Simulation.v - /repo/esl/economics/markets/walras/price_setter.cpp:58-162 with /repo/esl/simulation/model.cpp and
    /repo/esl/computation/environment.cpp.  What the messages that settle the trades contain is in Walras.v and Clearing.v; here it is arbitrary. *)
From Verif Require Import Base Identity Communicator Simulation Walras Markets Messages.

Section Sessions.
(** What participants keep, and the content of orders. *)
Context {T D : Type}.
(** Bodies of messages are numbers in Communicator.v: any way of writing quotes and of reading orders. *)
Context (encode : list (identity * Z) -> Z) (order_of : Z -> D).
(** The solver of Markets.v. *)
Context (solver : list (identity * D) -> list (identity * Z) -> option (list (identity * SpecFloat.spec_float))).
(** What participant [i], in a state, answers at some time to the quotes it gets: its state after and the body of the order. *)
Context (answer : identity -> Z -> T -> Z -> T * Z).
(** The transfers that settle the trades: participants and contents, in the order in which they are sent (price_setter.cpp:526-545). *)
Context (settlement : list (identity * D) -> list (identity * Z) -> list (identity * Z)).
(** What a participant in some state makes of a transfer at some time, and whether it asks to be activated again at the next time. *)
Context (booked : identity -> Z -> T -> Z -> T) (eager : identity -> bool).

(** The state of the price setter, with the orders that have been delivered to it and what it has put out (price_setter.cpp:133), or of
    a participant. *)
Inductive member := Setter (s : setter) (delivered : list message) (outputs : list (Z * list (identity * Z))) | Participant (t : T).

(** price_setter.cpp:84-90: the callback does nothing; [act] reads the orders from the inbox.  As the acts of Simulation.v see the state
    only, the callback puts the order aside here.  Orders of later delivery, which [act] would read as well (C107), are not there if
    participants answer at once. *)
Definition order_callback : callback (@own member) := fun m lower upper _ o =>
  match fst o with
  | Setter s delivered outputs => ((Setter s (delivered ++ [m]) outputs, snd o), upper)
  | Participant _ => (o, upper)
  end.
Definition letter_of (m : message) : Z * letter D := (m_received m, Order (m_sender m) (m_sent m) (order_of (m_body m))).
(** price_setter.cpp:153-159 with walras/quote_message.hpp:41-52: the time of sending stays 0. *)
Definition quote_message (self : identity) (n : quotation) : message :=
  mk_message (kind_code WalrasQuote) self (n_recipient n) 0 (n_received n) (encode (n_quotes n)).
(** price_setter.cpp:526-545, transfer.hpp:76-92: delivered at the time of the step.  The sender of what the market takes is the participant
    itself (538); here it is the market. *)
Definition transfer_message (self : identity) (lower : Z) (x : identity * Z) : message := mk_message (kind_code Transfer) self (fst x) 0 lower (snd x).
(** price_setter.cpp:101-162.  The prices are put out, and transfers sent, when there were orders (120-136).  If clearing fails, the time returned is before the
    step, for which the round fails as well (Simulation.v). *)
Definition market_act (self : identity) : @action member := fun lower upper _ o =>
  match fst o with
  | Setter s delivered outputs =>
      match setter_act solver lower upper (map letter_of delivered) s with
      | Ret (s', quotations, next) =>
          let orders := fst (collect lower (map letter_of delivered) []) in
          let outputs' := match orders with [] => outputs | _ => outputs ++ [(lower, s_quotes s')] end in
          let transfers := match orders with [] => [] | _ => map (transfer_message self lower) (settlement orders (s_quotes s)) end in
          ((Setter s' [] outputs', snd o ++ transfers ++ map (quote_message self) quotations), next)
      | _ => (o, lower - 1)
      end
  | Participant _ => (o, upper)
  end.
(** [random] is the schedule of the messages of an agent. *)
Definition registered (c : communicator (@own member)) (k : kind) (priority : Z) (f : callback (@own member)) : communicator (@own member) :=
  match register c (kind_code k) priority f with Ret c' => c' | _ => c end.
(** One callback, of the default priority 0 (communicator.hpp:221-231). *)
Definition market_agent (random : bool) (self : identity) (s : setter) : agent member :=
  mk_agent (lock (registered (new_communicator random) WalrasOrder 0 order_callback)) (market_act self) [] (Setter s [] [], []).

(** A participant: it answers each quote with an order to the sender (differentiable_order_message.hpp:42-58), sent and delivered at the time
    of the step. *)
Definition quote_callback (self : identity) : callback (@own member) := fun m lower upper _ o =>
  match fst o with
  | Participant t =>
      let '(t', body) := answer self lower t (m_body m) in
      ((Participant t', snd o ++ [mk_message (kind_code WalrasOrder) self (m_sender m) lower lower body]), upper)
  | Setter _ _ _ => (o, upper)
  end.
(** It books transfers, and asks for nothing (owner.hpp:68-102), with priority 50. *)
Definition transfer_callback (self : identity) : callback (@own member) := fun m lower upper _ o =>
  match fst o with
  | Participant t => ((Participant (booked self lower t (m_body m)), snd o), upper)
  | Setter _ _ _ => (o, upper)
  end.
(** agent.cpp:52-57 unless it is eager. *)
Definition participant_act (self : identity) : @action member := fun lower upper _ o => (o, if eager self then lower + 1 else upper).
Definition participant_agent (random : bool) (self : identity) (t : T) : agent member :=
  mk_agent (lock (registered (registered (new_communicator random) Transfer 50 (transfer_callback self)) WalrasQuote 0 (quote_callback self)))
    (participant_act self) [] (Participant t, []).
End Sessions.
Arguments member : clear implicits.
