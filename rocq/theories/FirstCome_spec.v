(** Specification of the order in which an agent handles messages. *)
From Verif Require Import Base Identity IdMap Communicator Simulation Simulation_spec Messages.

(** Times at which messages were handled, with the messages: each at its time of delivery, and earlier ones first. *)
Definition first_come (h : list (Z * message)) : Prop :=
  StronglySorted Z.le (map fst h) /\ Forall (fun p => m_received (snd p) = fst p) h.
(** The messages that an exchange handles. *)
Definition for_exchange (m : message) : bool := existsb (fun k => m_type m =? kind_code k) [Logon; Logout; MarketDataRequest; NewOrderSingle; CancelOrder].
(** An agent that sends messages of some kinds to [i] for the time step only in which it acts. *)
Definition prompt_to {St} (shuffle : seed -> list message -> list message) (kinds : message -> bool) (i : identity) (a : agent St) : Prop :=
  forall inbox x lower upper s o t, handle shuffle (mk_agent (ag_comm a) (ag_act a) inbox (x, [])) lower upper s = Ret (o, t) ->
    Forall (fun m => m_recipient m = i -> kinds m = true -> m_received m <= lower) (snd o).
Definition all_prompt_to {St} (shuffle : seed -> list message -> list message) (kinds : message -> bool) (i : identity) (w : world St) : Prop :=
  forall j a, im_find j (agents w) = Some a -> prompt_to shuffle kinds i a /\ ag_outbox a = [].
(** Rounds one after the other, with all the messages sent in them. *)
Inductive rounds_sending {St} (hash : identity -> Z) (shuffle : seed -> list message -> list message) : world St -> list message -> world St -> Prop :=
| no_round w : rounds_sending hash shuffle w [] w
| a_round lower upper n w p w1 f ms w' :
    act_phase hash shuffle lower upper n w = Ret p -> finish_round p = Ret (w1, f) -> rounds_sending hash shuffle w1 ms w' ->
    rounds_sending hash shuffle w (sent (p_world p) ++ ms) w'.
