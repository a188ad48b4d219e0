(** Specification for the exchange. *)
From Verif Require Import Base Identity BinaryBook Exchange.

(** What is recorded of a participant's position in a ticker. *)
Definition position_of (x : exchange) (t : Z) (a : identity) : option position :=
  match f_find Z.eqb t (x_positions x) with Some l => f_find id_eqb a l | None => None end.
(** Market data messages to [a] about [symbol]. *)
Definition updates (a : identity) (symbol : Z) (ms : list message) : list message :=
  filter (fun m => match m with MarketData r _ s _ _ _ => id_eqb r a && (s =? symbol) | _ => false end) ms.
(** Reports sent about orders in [symbol], and to whom. *)
Definition notices (symbol : Z) (ms : list message) : list (identity * report) :=
  flat_map (fun m => match m with Execution a _ o r => if o_symbol o =? symbol then [(a, r)] else [] | _ => [] end) ms.
(** The calls a history makes to the book of [symbol]. *)
Definition calls (symbol : Z) (h : list (Z * event)) : list op :=
  flat_map (fun te => match snd te with
    | NewOrder _ o => if o_symbol o =? symbol then [Insert o] else []
    | CancelOrder s i => if s =? symbol then [Cancel i] else []
    | _ => [] end) h.
(** Reports of [symbol]'s book that have not been sent. *)
Definition unsent (x : exchange) (symbol : Z) : list report :=
  match f_find Z.eqb symbol (x_books x) with Some (_, l) => l | None => [] end.
Definition book_of (x : exchange) (symbol : Z) : option book := option_map fst (f_find Z.eqb symbol (x_books x)).
(** The order moves the market in [x]: its sender trades, or the best bid or ask changes. *)
Definition newsworthy (x : exchange) (sender : identity) (o : order) : Prop :=
  exists b, book_of x (o_symbol o) = Some b /\ let '(b', rs) := insert b o in
  (exists r, In r rs /\ rp_state r = Matched /\ rp_owner r = sender) \/ ((bid b' <> bid b \/ ask b' <> ask b) /\ rs <> []).
(** The event is a market data request by [a]. *)
Definition asks_by (a : identity) (e : event) : bool := match e with Request b _ _ _ => id_eqb b a | _ => false end.
(** Histories: times do not decrease from [from] on and stay below [2^64]. *)
Fixpoint timed (from : Z) (h : list (Z * event)) : Prop :=
  match h with [] => from < W64 | (t, _) :: h' => from <= t /\ timed t h' end.
(** The subscription recorded for [a]. *)
Definition subscribed (x : exchange) (sym : Z) (a : identity) : option subscription :=
  match f_find Z.eqb sym (x_subscriptions x) with Some l => f_find id_eqb a l | None => None end.
