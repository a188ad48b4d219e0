(** Specification of the log of orders. *)
From Verif Require Import Base Identity BinaryBook BinaryBook_spec Exchange OrderLog.

(** The entry that tells what the report [r] on an order in [symbol] told its owner. *)
Definition tells_of (symbol : Z) (r : report) (l : log_entry) : Prop :=
  l_symbol l = symbol /\ l_limit l = rp_limit r /\ l_owner l = rp_owner r /\ l_side l = rp_side r /\ l_quantity l = rp_quantity r /\ l_state l = rp_state r.
Definition of_cancellation (l : log_entry) : bool := match l_state l with Cancelled => true | _ => false end.
