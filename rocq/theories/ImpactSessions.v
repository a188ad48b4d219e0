(** Model of an impact market in a simulation: the market of Markets.v among participants that answer its quotes, as agents of
    Simulation.v - /repo/esl/economics/markets/impact_function/market.cpp:45-151 with /repo/esl/simulation/model.cpp and
    /repo/esl/computation/environment.cpp. *)
From Verif Require Import Base Identity Communicator Simulation Walras Markets Messages.

Section Sessions.
(** What participants keep. *)
Context {T : Type}.
(** Bodies of messages are numbers in Communicator.v: any way of writing quotes and of reading the volumes of orders. *)
Context (encode : list (identity * Z) -> Z) (order_of : Z -> volumes).
(** What participant [i], in a state, answers at some time to the quotes it gets: its state after and the body of the order. *)
Context (answer : identity -> Z -> T -> Z -> T * Z).
(** Whether participants pass the time of sending to the constructor of orders, impact_function/order.hpp:49-57; the default is 0. *)
Context (stamped : bool).

(** The state of the market, with the orders that have been delivered to it, and for every time at which it was cleared the calls
    of the impact function and the prices put out (market.cpp:103-121); or the state of a participant. *)
Inductive party := Impact (s : impact_market) (delivered : list message) (log : list (Z * (list (identity * Z) * list (identity * Z)))) | Trader (t : T).

(** market.cpp:56-62: the callback does nothing; [act] reads the orders from the inbox.  As the acts of Simulation.v see the state
    only, the callback puts the order aside here.  Orders of later delivery, which [act] would read as well (C107), are not there if
    participants answer at once. *)
Definition volumes_callback : callback (@own party) := fun m lower upper _ o =>
  match fst o with
  | Impact s delivered log => ((Impact s (delivered ++ [m]) log, snd o), upper)
  | Trader _ => (o, upper)
  end.
Definition volumes_of (m : message) : Z * letter volumes := (m_received m, Order (m_sender m) (m_sent m) (order_of (m_body m))).
(** market.cpp:145-148 with quote_message.hpp:57-70: the time of sending stays 0. *)
Definition impact_quote (self : identity) (n : quotation) : message :=
  mk_message (kind_code ImpactQuote) self (n_recipient n) 0 (n_received n) (encode (n_quotes n)).
(** market.cpp:71-151. *)
Definition impact_action (self : identity) : @action party := fun lower upper _ o =>
  match fst o with
  | Impact s delivered log =>
      let '(s', quotations, calls, next) := impact_act lower upper (map volumes_of delivered) s in
      let log' := if i_clearing s then match fst (collect lower (map volumes_of delivered) []) with [] => log | _ => log ++ [(lower, (calls, i_quotes s'))] end else log in
      ((Impact s' [] log', snd o ++ map (impact_quote self) quotations), next)
  | Trader _ => (o, upper)
  end.
Definition registered (c : communicator (@own party)) (k : kind) (f : callback (@own party)) : communicator (@own party) :=
  match register c (kind_code k) 0 f with Ret c' => c' | _ => c end.
(** [random] is the schedule of the messages of an agent. *)
Definition impact_agent (random : bool) (self : identity) (s : impact_market) : agent party :=
  mk_agent (lock (registered (new_communicator random) ImpactOrder volumes_callback)) (impact_action self) [] (Impact s [] [], []).

(** A participant: it answers each quote with an order to the sender, delivered at the time of the step, and asks for nothing (agent.cpp:52-57). *)
Definition answer_callback (self : identity) : callback (@own party) := fun m lower upper _ o =>
  match fst o with
  | Trader t =>
      let '(t', body) := answer self lower t (m_body m) in
      ((Trader t', snd o ++ [mk_message (kind_code ImpactOrder) self (m_sender m) (if stamped then lower else 0) lower body]), upper)
  | Impact _ _ _ => (o, upper)
  end.
Definition trader_action : @action party := fun lower upper _ o => (o, upper).
Definition trader_agent (random : bool) (self : identity) (t : T) : agent party :=
  mk_agent (lock (registered (new_communicator random) ImpactQuote (answer_callback self))) trader_action [] (Trader t, []).
End Sessions.
Arguments party : clear implicits.
