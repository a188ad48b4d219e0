(** Specification for the markets that send quotes and collect orders. *)
From Verif Require Import Base Identity Markets.

Section Orders.
Context {D : Type}.
(** Orders of earlier steps. *)
Definition stale (lower : Z) (x : Z * letter D) : Prop := match snd x with Order _ sent _ => sent < lower | Other _ => False end.
(** The first order of a sender. *)
Inductive first_order (sender : identity) (content : D) : list (Z * letter D) -> Prop :=
| first_here received sent l : first_order sender content ((received, Order sender sent content) :: l)
| first_later x l : (forall sent d, snd x <> Order sender sent d) -> first_order sender content l -> first_order sender content (x :: l).
(** The part of the inbox before any order of an earlier step. *)
Definition before_stale (lower : Z) (inbox before : list (Z * letter D)) : Prop :=
  Forall (fun x => ~ stale lower x) before /\ (inbox = before \/ exists x l, inbox = before ++ x :: l /\ stale lower x).
End Orders.

(** The same quotes to each of the participants. *)
Definition announcement (participants : list identity) (date : Z) (quotes : list (identity * Z)) (l : list quotation) : Prop :=
  map n_recipient l = participants /\ Forall (fun n => n_received n = date /\ n_quotes n = quotes) l.
(** The demand for a property: bought less sold. *)
Definition demand (p : identity) (orders : list (identity * volumes)) : Z :=
  zsum (map (fun o => zsum (map (fun pv => if id_eqb p (fst pv) then match snd (snd pv) with Buy => fst (snd pv) | Sell => - fst (snd pv) end else 0) (snd o))) orders).
(** Sell orders of a given volume. *)
Definition sells (p : identity) (volume : Z) (orders : list (identity * volumes)) : Z :=
  zsum (map (fun o => zsum (map (fun pv => if id_eqb p (fst pv) && (fst (snd pv) =? volume) then match snd (snd pv) with Buy => 0 | Sell => 1 end else 0) (snd o))) orders).
(** The entry of a property, nought without one. *)
Definition value_of (p : identity) (m : list (identity * Z)) : Z := match find (fun x => id_eqb p (fst x)) m with Some x => snd x | None => 0 end.
