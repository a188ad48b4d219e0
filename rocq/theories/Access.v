(** Model of who may do what on an exchange - /repo/esl/economics/markets/centralized_exchange.hpp:440-550: the callbacks as
    functions of the message, of which every one has a sender. *)
From Verif Require Import Base Identity BinaryBook Exchange.

(** logon_message.hpp, logout_message.hpp, market_data_request_message.hpp, new_order_single_message.hpp,
    cancel_order_message.hpp:33-60. *)
Inductive body :=
| ToLogon (supply : list (Z * Z))
| ToLogout
| ToRequest (type : request) (depth : Z) (instruments : list Z)
| ToOrder (o : order)
| ToCancel (symbol ident : Z).
(** Line 545 uses the symbol and the identifier of the order only. *)
Definition callback (sender : identity) (m : body) : event :=
  match m with
  | ToLogon supply => Logon sender supply
  | ToLogout => Logout sender
  | ToRequest type depth instruments => Request sender type depth instruments
  | ToOrder o => NewOrder sender o
  | ToCancel symbol ident => CancelOrder symbol ident
  end.
(** A history of messages received: when, from whom, what. *)
Definition received (h : list (Z * identity * body)) : list (Z * event) := map (fun '(t, a, m) => (t, callback a m)) h.
