(** Model of the last step of the clearing of a Walrasian market: the transfers sent to the participants -
    /repo/esl/economics/markets/walras/price_setter.cpp:526-545. *)
From Verif Require Import Base Identity Inventory Walras.

(** Lines 527-535 and 537-545: one message to each participant for what it gets, with the market as transferor, then one
    for what it gives, with the market as transferee; all are addressed to the participant.  The recipient and the
    transfer of each message, in the order in which they are put in the outbox.  The time of delivery is the present
    and the sender of the latter messages is the participant; both are left out. *)
Definition market_transfers (market : identity) (send receive : parties) : list (identity * transfer) :=
  map (fun x => (fst x, mk_transfer market (fst x) (snd x))) send ++
  map (fun x => (fst x, mk_transfer (fst x) market (snd x))) receive.
