(** Model of companies and shareholders in a simulation: those of Company.v as agents of Simulation.v - /repo/esl/economics/company.cpp and
    /repo/esl/economics/finance/shareholder.cpp with /repo/esl/simulation/model.cpp. *)
From Verif Require Import Company.
From Verif Require Import Base Identity Communicator Simulation Messages.

Section Dividends.
(** Bodies are numbers in Communicator.v: how policies and records are written, and how the ex-dividend date is read. *)
Context (write : policy -> Z) (ex_date : Z -> Z) (write_record : list (Z * Z) -> Z).
(** What other agents keep. *)
Context {T : Type}.
Inductive party := Firm (c : company) | Holder (h : shareholder) | Outsider (t : T).

(** company.cpp:128-132 with dividend.hpp:111-120 and communicator.hpp:190-202: the time of sending stays 0. *)
Definition announce (self : identity) (a : announcement) : message :=
  mk_message (kind_code DividendAnnouncement) self (a_to a) 0 (a_arrival a) (write (a_policy a)).
(** shareholder.cpp:94-95. *)
Definition submit (self : identity) (r : record) : message :=
  mk_message (kind_code DividendRecord) self (r_to r) 0 (r_delivery r) (write_record (r_shares r)).
(** company.cpp:111-183; [offered] is the virtual member function [upcoming_dividend].  A company is a shareholder as well: left out here. *)
Definition firm_act (self : identity) (offered : Z -> Z -> seed -> option policy) : @action party := fun lower upper s o =>
  match fst o with
  | Firm c => let '(c', ms, next) := Company.act lower upper (offered lower upper s) c in ((Firm c', snd o ++ map (announce self) ms), next)
  | _ => (o, upper)
  end.
Definition firm_agent (random : bool) (self : identity) (offered : Z -> Z -> seed -> option policy) (c : company) : agent party :=
  mk_agent (lock (new_communicator random)) (firm_act self offered) [] (Firm c, []).
(** shareholder.cpp:52-63. *)
Definition holder_callback (self : identity) : callback (@own party) := fun m lower upper _ o =>
  match fst o with
  | Holder h => let '(h', rs) := on_announcement lower upper (m_sender m) (ex_date (m_body m)) h in ((Holder h', snd o ++ map (submit self) rs), upper)
  | _ => (o, upper)
  end.
Definition holder_communicator (random : bool) (self : identity) : communicator (@own party) :=
  match register (new_communicator random) (kind_code DividendAnnouncement) 0 (holder_callback self) with Ret c => c | _ => new_communicator random end.
(** agent.cpp:52-57. *)
Definition idle_act : @action party := fun lower upper _ o => (o, upper).
Definition holder_agent (random : bool) (self : identity) (h : shareholder) : agent party :=
  mk_agent (lock (holder_communicator random self)) idle_act [] (Holder h, []).
End Dividends.
Arguments party : clear implicits.
