(** Specification for the settlement of a clearing by the participants. *)
From Verif Require Import Base Identity Communicator Inventory Inventory_spec Walras Clearing Ownership Ownership_spec.

(** The transfers that are addressed to [a]. *)
Definition received (a : identity) (l : list (identity * transfer)) : list transfer := map snd (filter (fun x => id_eqb (fst x) a) l).
(** An owner's inventory after some transfers; none when one of them fails. *)
Fixpoint process_all (self : identity) (ts : list transfer) (inventory : holdings) : option holdings :=
  match ts with
  | [] => Some inventory
  | t :: ts' => match process_transfer self t inventory with Some m => process_all self ts' m | None => None end
  end.
(** Messages that carry these transfers to these recipients. *)
Definition carry (content : Z -> transfer) (ms : list message) (l : list (identity * transfer)) : Prop :=
  Forall2 (fun m x => m_type m = transfer_code /\ m_recipient m = fst x /\ content (m_body m) = snd x) ms l.
(** Nobody holds or needs a short position. *)
Definition no_shorts (supply : identity -> identity -> Z * Z) (p : identity) (trades : list (identity * Z)) : Prop :=
  forall a v, In (a, v) trades -> snd (supply a p) = 0 /\ - v <= fst (supply a p).
(** What a trade of [v] units costs, in the arithmetic [A]. *)
Definition cost (A : StaticTicks.arith) (t : traded) (v : Z) : Z := 
  if v >? 0 then cash A v (t_price t) (t_lot t) else if v <? 0 then - cash A (- v) (t_price t) (t_lot t) else 0.
