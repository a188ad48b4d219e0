(** Specification for C201: participants that trade several properties in one clearing. *)
From Verif Require Import Base Identity Inventory Inventory_spec Walras Clearing Clearing_spec.

(** The trades of [a] in a clearing, in the order in which the market settles them; trades of zero units left out. *)
Definition trades_of (a : identity) (l : list (traded * list (identity * Z))) : list (traded * Z) :=
  flat_map (fun tl => map (fun x => (fst tl, snd x)) (filter (fun x => id_eqb (fst x) a && negb (snd x =? 0)) (snd tl))) l.
(** The units of [k] bought (negative when sold), and what it all costs (negative when money is due to the participant). *)
Definition bought (ts : list (traded * Z)) (k : identity) : Z :=
  zsum (map (fun x => if id_eqb (t_id (fst x)) k then snd x else 0) ts).
Definition all_costs (A : StaticTicks.arith) (ts : list (traded * Z)) : Z := zsum (map (fun x => cost A (fst x) (snd x)) ts).
(** What participant [a] ends with: its trades, and its money less what they cost. *)
Definition settled (A : StaticTicks.arith) (usd : identity) (ts : list (traded * Z)) (before after : holdings) : Prop :=
  forall k, held after k = if id_eqb k usd then held before k - all_costs A ts else held before k + bought ts k.
(** The participant states no short position in what it trades, and sells no more than it has. *)
Definition covered (supply : identity -> identity -> Z * Z) (a : identity) (ts : list (traded * Z)) : Prop :=
  Forall (fun x => snd (supply a (t_id (fst x))) = 0 /\ - snd x <= fst (supply a (t_id (fst x)))) ts.
(** The participant does not trade, trades one property, or only sells. *)
Definition simple (ts : list (traded * Z)) : Prop := (length ts <= 1)%nat \/ Forall (fun x => snd x < 0) ts.
(** The amounts are those of the machine, and the participant has what it gives. *)
Definition affordable (A : StaticTicks.arith) (usd : identity) (ts : list (traded * Z)) (before : holdings) : Prop :=
  Forall (fun x => 0 <= cash A (Z.abs (snd x)) (t_price (fst x)) (t_lot (fst x))) ts /\
  (forall k, 0 <= held before k + bought ts k < 2 ^ 64) /\ Forall (fun x => Z.abs (snd x) < 2 ^ 64) ts /\
  Z.abs (all_costs A ts) < 2 ^ 64 /\ 0 <= held before usd - all_costs A ts < 2 ^ 64.
