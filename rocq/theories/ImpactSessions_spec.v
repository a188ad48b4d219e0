(** Specification of the sessions of an impact market. *)
From Verif Require Import Base Identity IdMap Communicator Simulation Simulation_spec Walras Markets ImpactSessions.

Section Spec.
Context {T : Type} (encode : list (identity * Z) -> Z) (order_of : Z -> volumes) (answer : identity -> Z -> T -> Z -> T * Z) (stamped : bool).
(** The same quotes answered several times: the state after, and the bodies of the orders. *)
Fixpoint answers (i : identity) (time : Z) (times : nat) (t : T) (body : Z) : T * list Z :=
  match times with
  | O => (t, [])
  | S n => let '(t1, b) := answer i time t body in let '(t2, bs) := answers i time n t1 body in (t2, b :: bs)
  end.
(** The orders that count: of every participant one, of those that it made at the time. *)
Definition one_each (participants : list identity) (time : Z) (times : nat) (quotes : list (identity * Z)) (states : identity -> T) (orders : list (identity * volumes)) : Prop :=
  Permutation (map fst orders) participants /\
  forall i d, In (i, d) orders -> exists b, In b (snd (answers i time times (states i) (encode quotes))) /\ d = order_of b.
(** Sessions from one time until another: at each time all participants answer the quotes, [opening] times in the first session and once in the others.  The
    market has the impact function called for the net volumes of one order of every participant; what is quoted then is what was quoted and, with
    price 0, the other property that was ordered. *)
Inductive impact_sessions (participants : list identity) (until : Z) :
  nat -> Z -> list (identity * Z) -> (identity -> T) -> list (Z * (list (identity * Z) * list (identity * Z))) -> list (identity * Z) -> (identity -> T) -> Prop :=
| impact_over opening quotes states : impact_sessions participants until opening until quotes states [] quotes states
| impact_session opening time quotes states orders extra states' log last last_states :
    time < until -> one_each participants time opening quotes states orders ->
    Forall (fun x => snd x = 0 /\ exists o, In o orders /\ In (fst x) (map fst (snd o))) extra ->
    (forall i, In i participants -> states' i = fst (answers i time opening (states i) (encode quotes))) ->
    impact_sessions participants until 1 (time + 1) (quotes ++ extra) states' log last last_states ->
    impact_sessions participants until opening time quotes states ((time, (net_volumes orders, quotes ++ extra)) :: log) last last_states.
(** A world of one market and its participants, to be run from time 0. *)
Definition impact_world (random : identity -> bool) (market : identity) (participants : list identity) (quotes : list (identity * Z)) (states : identity -> T) (w : world (party T)) : Prop :=
  well_formed w /\ wake_up_times w = [] /\
  im_find market (agents w) = Some (impact_agent encode order_of (random market) market (new_impact quotes participants)) /\
  (forall i, In i participants -> im_find i (agents w) = Some (trader_agent answer stamped (random i) i (states i))) /\
  (forall i, i <> market -> ~ In i participants -> im_find i (agents w) = None).
(** What is there after a run: the last quotes and all that the market has put out, and the states of the participants. *)
Definition impact_outcome (market : identity) (participants : list identity) (quotes : list (identity * Z)) (states : identity -> T)
  (log : list (Z * (list (identity * Z) * list (identity * Z)))) (w : world (party T)) : Prop :=
  (exists s comm act inbox out, im_find market (agents w) = Some (mk_agent comm act inbox (Impact s [] log, out)) /\ i_quotes s = quotes) /\
  (forall i, In i participants -> exists comm act inbox out, im_find i (agents w) = Some (mk_agent comm act inbox (Trader (states i), out))).
End Spec.
