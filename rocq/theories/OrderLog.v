(** Model of the log of orders - /repo/esl/economics/markets/centralized_exchange.hpp:201-212, 350-362: what a modeller who
    sets [output_orders] finds in it.  The state [invalid] is not in the model: BinaryBook.v never reports it. *)
From Verif Require Import Base Identity BinaryBook Exchange.

(** The tuple [output_orders] takes, with its time. *)
Record log_entry := mk_log_entry { l_time : Z; l_symbol : Z; l_limit : Z; l_owner : identity; l_side : side; l_quantity : Z; l_state : state }.
(** Lines 353-361. *)
Definition entry_of (now symbol : Z) (r : report) : log_entry :=
  mk_log_entry now symbol (rp_limit r) (rp_owner r) (rp_side r) (rp_quantity r) (rp_state r).
(** Lines 310-362: what one order adds. *)
Definition log_order (now : Z) (sender : identity) (o : order) (x : exchange) : list log_entry :=
  match f_find Z.eqb (o_symbol o) (x_books x) with
  | None => []
  | Some (b, pending) => map (entry_of now (o_symbol o)) (filter (fun r => id_eqb (rp_owner r) sender) (pending ++ snd (insert b o)))
  end.
(** The log after a history; other messages add nothing. *)
Fixpoint order_log (delay : identity -> Z) (h : list (Z * event)) (x : exchange) : list log_entry :=
  match h with
  | [] => []
  | (now, e) :: h' =>
      match e with NewOrder sender o => log_order now sender o x | _ => [] end ++
      match handle delay now e x with Ret (x', _) => order_log delay h' x' | _ => [] end
  end.
