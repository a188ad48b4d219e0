(** Specification of what traders are told of their orders by an exchange in a simulation. *)
From Verif Require Import Base Identity IdMap Communicator Simulation Simulation_spec BinaryBook BinaryBook_spec FirstCome.
From Verif Require Exchange.

Section Reports.
(** Bodies are numbers in Communicator.v: how an execution report is read from a message, with the symbol of the order. *)
Context (read : message -> option (Z * report)).
(** The reports about a symbol among some messages. *)
Definition reports_in (symbol : Z) (ms : list message) : list report :=
  flat_map (fun m => match read m with Some (s, r) => if s =? symbol then [r] else [] | None => [] end) ms.
(** What [i] is told by these about its orders of one side: quantities in some state. *)
Definition told (symbol : Z) (i : identity) (s : side) (st : state) (ms : list message) : Z :=
  total (fun r => is_state st r && side_eqb (rp_side r) s) (reports_in symbol (filter (addressed_to i) ms)).
(** The trades on one side: their quantities, and what is paid. *)
Definition traded (s : side) (rs : list report) : list report := filter (fun r => is_state Matched r && side_eqb (rp_side r) s) rs.
Definition quantity_traded (s : side) (rs : list report) : Z := zsum (map rp_quantity (traded s rs)).
Definition money_traded (s : side) (rs : list report) : Z := zsum (map (fun r => rp_quantity r * rp_limit r) (traded s rs)).
(** An agent that sends no execution reports. *)
Definition mute {St} (shuffle : seed -> list message -> list message) (a : agent St) : Prop :=
  ag_outbox a = [] /\
  forall inbox x lower upper s o t, Simulation.handle shuffle (mk_agent (ag_comm a) (ag_act a) inbox (x, [])) lower upper s = Ret (o, t) ->
    Forall (fun m => read m = None) (snd o).
(** Messages can be written so that they are read again, and go to their recipients. *)
Definition readable (post : Exchange.message -> message) : Prop :=
  forall m, match m with
  | Exchange.Execution a _ o r => read (post m) = Some (o_symbol o, r) /\ m_recipient (post m) = a
  | Exchange.MarketData _ _ _ _ _ _ => read (post m) = None
  end.
End Reports.
(** What [i] has ordered with some messages. *)
Definition ordered (event_of : message -> Exchange.event) (symbol : Z) (i : identity) (s : side) (ms : list message) : Z :=
  zsum (map (fun m => match event_of m with
    | Exchange.NewOrder _ o => if (o_symbol o =? symbol) && id_eqb (o_owner o) i && side_eqb (o_side o) s then o_quantity o else 0
    | _ => 0 end) ms).
(** What rests of the orders of [i] on one side. *)
Definition rests (i : identity) (s : side) (b : book) : Z :=
  quantity_of (filter (fun x => id_eqb (o_owner (snd x)) i && side_eqb (o_side (snd x)) s) (resting b)).
(** Quantities in some state about the orders of [i] on one side among reports. *)
Definition about (i : identity) (s : side) (st : state) (rs : list report) : Z :=
  total (fun r => is_state st r && side_eqb (rp_side r) s && id_eqb (rp_owner r) i) rs.
