(** Specification of the market data an exchange sends to its subscribers. *)
From Verif Require Import Base Identity BinaryBook BinaryBook_spec Exchange Exchange_spec.

(** The trades named in market data messages, in the order sent: price and quantity. *)
Definition feed (ms : list message) : list (Z * Z) :=
  flat_map (fun m => match m with MarketData _ _ _ ts _ _ => ts | _ => [] end) ms.
(** The trades [who] is told of by reports: price and quantity. *)
Definition trades_of (who : identity) (rs : list report) : list (Z * Z) :=
  map (fun r => (rp_limit r, rp_quantity r)) (filter (fun r => is_state Matched r && id_eqb (rp_owner r) who) rs).
(** Nothing [who] has resting on the book. *)
Definition absent (who : identity) (b : book) : Prop := forall i o, In (i, o) (resting b) -> o_owner o <> who.
(** The quantity resting on side [s] at [price]. *)
Definition available (s : side) (price : Z) (b : book) : Z :=
  quantity_of (filter (fun r => o_limit (snd r) =? price) (resting_side s b)).
