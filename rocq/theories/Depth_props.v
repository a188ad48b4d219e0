(** C225: the depth of market data. *)
From Coq Require Import ZifyBool ZifyNat.
From Verif Require Import Base Identity BinaryBook Exchange Exchange_spec Exchange_proofs Exchange_props Feed_props Depth_spec Depth_proofs.

(** How many levels are asked for makes no difference to any message the exchange sends. *)
Theorem C225_depth_refuted : forall delay traded books h h' x ms, Forall2 same_but_depth h h' ->
  operate delay h (new_exchange traded books) = Ret (x, ms) -> exists x', operate delay h' (new_exchange traded books) = Ret (x', ms).
Proof.
  intros delay traded books h h' x ms S H. pose proof (operate_blind delay h (new_exchange traded books)) as E. pose proof (operate_blind delay h' (new_exchange traded books)) as E'.
  rewrite (same_flat h h' S), E', H in E. cbn [lift fst snd] in E. destruct (operate delay h' (new_exchange traded books)) as [[x' ms']| |]; cbn [lift fst snd] in E; try discriminate. assert (ms' = ms) as -> by congruence. eauto.
Qed.
Print Assumptions C225_depth_refuted.
(** Agent 8 wants trades only, or three levels: in either case it is told of the best ask, and nothing of the second. *)
Example C225_case :
  let h d := [(2, Request [8] Snapshot d [5]); (4, NewOrder [1] (demo_order Sell 100 10 [1])); (5, NewOrder [1] (demo_order Sell 102 3 [1])); (6, NewOrder [2] (demo_order Buy 100 4 [2]))] in
  Forall2 same_but_depth (h 0) (h 3) /\
  (exists x ms, operate (fun _ => 0) (h 0) (new_exchange [5] [(5, (empty_book, []))]) = Ret (x, ms) /\ updates [8] 5 ms = [MarketData [8] 4 5 [] [(100, 1)] []; MarketData [8] 6 5 [(100, 4)] [(100, 1)] []]) /\
  (exists x ms, operate (fun _ => 0) (h 3) (new_exchange [5] [(5, (empty_book, []))]) = Ret (x, ms) /\ updates [8] 5 ms = [MarketData [8] 4 5 [] [(100, 1)] []; MarketData [8] 6 5 [(100, 4)] [(100, 1)] []]).
Proof.
  split. { constructor; [right; repeat eexists|]. repeat (constructor; [now left|]). constructor. }
  split; do 2 eexists; (split; [vm_compute; reflexivity|vm_compute; reflexivity]).
Qed.
