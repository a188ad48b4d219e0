(** Specification for the clearing of a Walrasian market. *)
From Verif Require Import Base Identity Inventory Inventory_spec Walras.

(** Units of [k] listed for participant [a]. *)
Definition listed (m : parties) (a k : identity) : Z :=
  match p_find a m with Some h => held h k | None => 0 end.
(** All trades together. *)
Definition total (trades : list (identity * Z)) : Z := zsum (map snd trades).
(** Cash that flows to the market, over the participants. *)
Definition cash_balance (usd : identity) (send receive : parties) (participants : list identity) : Z :=
  zsum (map (fun a => listed receive a usd - listed send a usd) participants).
