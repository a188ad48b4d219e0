(** Model of an economy with a Walrasian market: the market of Sessions.v with its settlement of Walras.v and Clearing.v, among owners that
    process transfers as in Inventory.v - /repo/esl/economics/markets/walras/price_setter.cpp:279-545 and /repo/esl/economics/owner.hpp:68-102. *)
From Verif Require Import Base Identity Inventory Communicator Simulation StaticTicks Walras Markets Clearing Sessions.
From Coq Require Import SpecFloat.

Section Economy.
(** What traders remember besides what they own, and the content of orders. *)
Context {M D : Type}.
(** The arithmetic, and the identities of cash and of the market, which trades one property. *)
Context (A : arith) (usd market : identity) (short_of : identity -> identity).
Context (solver : list (identity * D) -> list (identity * Z) -> option (list (identity * spec_float))).
(** The trades computed from the orders at the solution (price_setter.cpp:308-398), and the long and short position stated in an order
    (differentiable_order_message.hpp:51). *)
Context (trade : list (identity * D) -> list (identity * spec_float) -> list (identity * Z)) (stated : D -> Z * Z).
(** Bodies of messages are numbers in Communicator.v: any way of writing and reading transfers. *)
Context (code : transfer -> Z) (content : Z -> transfer).
(** What trader [i] remembers and orders when it gets quotes. *)
Context (strategy : identity -> Z -> option holdings * M -> Z -> M * Z).

(** price_setter.cpp:414-422, for the one property: zero when there is no order. *)
Fixpoint stated_by (orders : list (identity * D)) (a : identity) : Z * Z :=
  match orders with
  | [] => (0, 0)
  | (i, d) :: orders' => if id_eqb i a then stated d else stated_by orders' a
  end.
(** price_setter.cpp:279-545: nothing is sent if there is no solution (294-302).  Prices are for one unit.  Where the clearing has
    undefined behaviour nothing is sent here (it never has, C61). *)
Definition market_settlement (orders : list (identity * D)) (quotes : list (identity * Z)) : list (identity * Z) :=
  match solver orders quotes, quotes with
  | Some result, [(p, old)] =>
      match apply_results result quotes with
      | Ret [(_, new)] =>
          match clear A usd short_of (fun a _ => stated_by orders a) [(mk_traded p new old 1, trade orders result)] with
          | Ret (send, receive) => map (fun x => (fst x, code (snd x))) (market_transfers market send receive)
          | _ => []
          end
      | _ => []
      end
  | _, _ => []
  end.
(** A trader has an inventory, and none once it could not process a transfer, for which [process_message] throws (owner.hpp:76-84). *)
Definition trader_answer (i : identity) (time : Z) (s : option holdings * M) (body : Z) : (option holdings * M) * Z :=
  let '(memory, order) := strategy i time s body in ((fst s, memory), order).
(** owner.hpp:68-102 *)
Definition trader_booked (i : identity) (time : Z) (s : option holdings * M) (body : Z) : option holdings * M :=
  (match fst s with Some inventory => process_transfer i (content body) inventory | None => None end, snd s).
End Economy.
