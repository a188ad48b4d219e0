(** Specification of market sessions. *)
From Verif Require Import Base Identity IdMap Communicator Simulation Simulation_spec Walras Markets Sessions.

Section Spec.
Context {T D : Type} (encode : list (identity * Z) -> Z) (order_of : Z -> D).
Context (solver : list (identity * D) -> list (identity * Z) -> option (list (identity * SpecFloat.spec_float))).
Context (answer : identity -> Z -> T -> Z -> T * Z) (settlement : list (identity * D) -> list (identity * Z) -> list (identity * Z)).
Context (booked : identity -> Z -> T -> Z -> T) (eager : identity -> bool).
(** The orders of all participants at a time, each an answer to the same quotes. *)
Definition all_orders (participants : list identity) (time : Z) (quotes : list (identity * Z)) (states : identity -> T) : list (identity * D) :=
  map (fun i => (i, order_of (snd (answer i time (states i) (encode quotes))))) participants.
(** The contents of the transfers to a participant. *)
Definition sent_to (i : identity) (transfers : list (identity * Z)) : list Z := map snd (filter (fun x => id_eqb (fst x) i) transfers).
(** Sessions from one time until another.  At each time the market is cleared, once, with the orders of all participants, listed in some order;
    it puts out the new quotes, and every participant, having answered the old quotes, books the transfers to it, in some order.  In
    the end there are the last quotes and states - or [None] if the market cannot be cleared at some time. *)
Inductive sessions (participants : list identity) (until : Z) :
  Z -> list (identity * Z) -> (identity -> T) -> list (Z * list (identity * Z)) -> option (list (identity * Z) * (identity -> T)) -> Prop :=
| over quotes states : sessions participants until until quotes states [] (Some (quotes, states))
| stuck time quotes states orders :
    time < until -> Permutation orders (all_orders participants time quotes states) ->
    (forall quotes', clear_quotes solver orders quotes <> Ret quotes') ->
    sessions participants until time quotes states [] None
| session time quotes states orders quotes' states' outputs last :
    time < until -> Permutation orders (all_orders participants time quotes states) ->
    clear_quotes solver orders quotes = Ret quotes' ->
    (forall i, In i participants -> exists bodies, Permutation bodies (sent_to i (settlement orders quotes)) /\
       states' i = fold_left (booked i time) bodies (fst (answer i time (states i) (encode quotes)))) ->
    sessions participants until (time + 1) quotes' states' outputs last ->
    sessions participants until time quotes states ((time, quotes') :: outputs) last.
(** A world of one market and its participants, to be run from time 0. *)
Definition market_world (random : identity -> bool) (market : identity) (participants : list identity) (quotes : list (identity * Z)) (states : identity -> T) (w : world (member T)) : Prop :=
  well_formed w /\ wake_up_times w = [] /\
  im_find market (agents w) = Some (market_agent encode order_of solver settlement (random market) market (new_setter quotes participants)) /\
  (forall i, In i participants -> im_find i (agents w) = Some (participant_agent answer booked eager (random i) i (states i))) /\
  (forall i, i <> market -> ~ In i participants -> im_find i (agents w) = None).
(** What is there after a run: the last quotes and all outputs of the market, and the states of the participants. *)
Definition outcome_of (market : identity) (participants : list identity) (quotes : list (identity * Z)) (states : identity -> T)
  (outputs : list (Z * list (identity * Z))) (w : world (member T)) : Prop :=
  (exists s comm act inbox out, im_find market (agents w) = Some (mk_agent comm act inbox (Setter s [] outputs, out)) /\ s_quotes s = quotes) /\
  (forall i, In i participants -> exists comm act inbox out, im_find i (agents w) = Some (mk_agent comm act inbox (Participant (states i), out))).
(** Transfers go to those that have ordered. *)
Definition settles_with_orderers : Prop := forall orders quotes x, In x (settlement orders quotes) -> In (fst x) (map fst orders).
(** And those that get transfers ask to be activated again at the next time. *)
Definition settles_with_eager : Prop := settles_with_orderers /\ forall orders quotes x, In x (settlement orders quotes) -> eager (fst x) = true.
(** Every participant trades at the time. *)
Definition all_trade (participants : list identity) (time : Z) (quotes : list (identity * Z)) (states : identity -> T) : Prop :=
  forall orders i, Permutation orders (all_orders participants time quotes states) -> In i participants -> exists body, In (i, body) (settlement orders quotes).
End Spec.
(** The times t, t + 1, ... of n steps. *)
Definition times (t : Z) (n : nat) : list Z := map (fun k => t + Z.of_nat k) (seq 0 n).
