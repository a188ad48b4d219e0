(** C226, C227: whom market data go to, and when they arrive. *)
From Coq Require Import ZifyBool ZifyNat.
From Verif Require Import Base Identity BinaryBook Exchange Exchange_spec Exchange_proofs Exchange_props Audience_spec Audience_proofs.

(** Market data are sent on an order in the ticker they are about, and arrive after the time of the connection to the
    subscriber, never before they were sent. *)
Theorem C226_arrival delay traded books h x ms now e x' ms' a t sym ts asks bids :
  operate delay h (new_exchange traded books) = Ret (x, ms) -> handle delay now e x = Ret (x', ms') -> In (MarketData a t sym ts asks bids) ms' ->
  0 <= now -> 0 <= delay a -> now + delay a < W64 ->
  t = now + delay a /\ now <= t /\ exists sender o, e = NewOrder sender o /\ o_symbol o = sym.
Proof.
  intros _ H I N D B. destruct (handle_data _ _ _ _ _ _ _ _ _ _ _ _ H I) as (-> & O & _). unfold w64. rewrite Z.mod_small by lia. split; [reflexivity|]. split; [lia|exact O].
Qed.
Print Assumptions C226_arrival.
(** A delay so long that the time of arrival wraps around leads to the past. *)
Theorem C226_wrapped_refuted : exists delay h x ms a t sym ts asks bids,
  operate delay h (new_exchange [5] [(5, (empty_book, []))]) = Ret (x, ms) /\ In (MarketData a t sym ts asks bids) ms /\ (forall b, 0 <= delay b < W64) /\
  Forall (fun te => t < fst te) h.
Proof.
  exists (fun _ => W64 - 5), [(4, Request [1] Snapshot 1 [5]); (5, Request [1] Stream 1 [5]); (6, NewOrder [2] (demo_order Sell 99 4 [2]))].
  do 2 eexists. exists [1], 1, 5. do 3 eexists. split; [vm_compute; reflexivity|]. split; [vm_compute; right; left; reflexivity|]. split; [unfold W64; lia|]. repeat constructor.
Qed.
Print Assumptions C226_wrapped_refuted.
Example C226_case : exists x ms t ts asks bids,
  operate (fun a => if id_eqb a [1] then 10 else 3) [(4, Request [1] Snapshot 1 [5]); (5, Request [1] Stream 1 [5]); (6, NewOrder [2] (demo_order Sell 99 4 [2]))]
    (new_exchange [5] [(5, (empty_book, []))]) = Ret (x, ms) /\ In (MarketData [1] t 5 ts asks bids) ms /\ t = 16.
Proof. do 6 eexists. split; [vm_compute; reflexivity|]. split; [vm_compute; right; left; reflexivity|reflexivity]. Qed.

(** Market data go to those who have asked for data on that ticker before, and have not cancelled that since. *)
Theorem C227_asked delay traded books h x ms now e x' ms' a t sym ts asks bids :
  operate delay h (new_exchange traded books) = Ret (x, ms) -> handle delay now e x = Ret (x', ms') -> In (MarketData a t sym ts asks bids) ms' ->
  wants h sym a.
Proof.
  intros H H' I. destruct (handle_data _ _ _ _ _ _ _ _ _ _ _ _ H' I) as (_ & _ & L).
  apply (operate_list delay h [] (new_exchange traded books) x ms (new_uniq traded books)); [|exact H|exact L]. intros s b (l & F & _). discriminate.
Qed.
Print Assumptions C227_asked.
(** Of two subscribers to two tickers, the one that has cancelled hears nothing. *)
Example C227_case : exists x ms x' ms',
  operate (fun _ => 1) [(1, Request [1] Snapshot 1 [5; 6]); (2, Request [1] Stream 1 [5; 6]); (2, Request [3] Stream 1 [5; 6]); (3, Request [1] CancelData 1 [5])]
    (new_exchange [5; 6] [(5, (empty_book, [])); (6, (empty_book, []))]) = Ret (x, ms) /\
  handle (fun _ => 1) 6 (NewOrder [2] (demo_order Sell 99 4 [2])) x = Ret (x', ms') /\
  flat_map (fun m => match m with MarketData a _ s _ _ _ => [(a, s)] | _ => [] end) ms' = [([3], 5)].
Proof. do 4 eexists. split; [vm_compute; reflexivity|]. split; [vm_compute; reflexivity|]. reflexivity. Qed.
