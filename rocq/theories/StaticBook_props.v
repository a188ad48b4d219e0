(** C41, C42, C77: the fixed-tick order book. *)
From Coq Require Import ZifyBool.
From Verif Require Import Base BlockPool StaticTicks StaticBook StaticBook_spec StaticBook_proofs.

(** * C41: fill or kill *)
(** A fill-or-kill order that can be executed in part only is executed in part, and the rest stays. *)
Theorem C41_all_or_nothing_refuted : exists o b b', demo [sell 1 5 10] = Ok b /\
  o_lifetime o = fill_or_kill /\ operate 1 11 2 demo_encode demo_decode false 20 b (Insert o) = Ok b' /\
  executed (b_reports b') = 10 /\ 10 < o_quantity o /\
  bid demo_decode b' = Ok (Some 5) /\ ask demo_decode b' = Ok None.
Proof.
  exists (mk_order 2 true 5 2 20 fill_or_kill).
  destruct (demo [sell 1 5 10]) as [b| | |] eqn:E; try (vm_compute in E; discriminate E).
  exists b. destruct (operate 1 11 2 demo_encode demo_decode false 20 b (Insert (mk_order 2 true 5 2 20 fill_or_kill))) as [b'| | |] eqn:E';
    try (exfalso; revert E'; vm_compute in E; injection E as <-; vm_compute; discriminate).
  exists b'. split; [reflexivity|]. split; [reflexivity|]. split; [reflexivity|].
  vm_compute in E; injection E as <-. vm_compute in E'. injection E' as <-. vm_compute. repeat split.
Qed.
Print Assumptions C41_all_or_nothing_refuted.

Section AnyBook.
Context (lowest highest lot : Z) (encode decode : Z -> Z) (fuel : nat).
Local Notation insert' := (insert lowest highest lot encode decode fuel).
(** In any book whatsoever, a fill-or-kill order does what a good-until-cancelled one does if it
    crosses the best opposite quote, ... *)
Theorem C41_crossing_is_good_until_cancelled : forall o b q,
  (if o_buy o then ask decode b else bid decode b) = Ok (Some q) ->
  (if o_buy o then q <=? o_limit o else o_limit o <=? q) = true ->
  insert' (with_lifetime o fill_or_kill) b = insert' (with_lifetime o good_until_cancelled) b.
Proof. intros o b q Q C. apply (fok_crossing _ _ _ _ _ _ o b q); assumption. Qed.
(** ... and is otherwise cancelled whole, with one report, without touching the book. *)
Theorem C41_not_crossing_is_cancelled : forall o b b',
  o_lifetime o = fill_or_kill -> valid lowest highest (o_limit o) = true -> 0 < o_quantity o ->
  (exists q, (if o_buy o then ask decode b else bid decode b) = Ok q /\
     match q with Some q => (if o_buy o then q <=? o_limit o else o_limit o <=? q) = false | None => True end) ->
  insert' o b = Ok b' ->
  b' = mk_book (b_pool b) (b_levels b) (b_bid b) (b_ask b)
         (b_reports b ++ [mk_report cancelled (o_buy o) (o_quantity o) direct_order (o_limit o) (o_owner o)]).
Proof. exact (fok_not_crossing lowest highest lot encode decode fuel). Qed.
End AnyBook.
Print Assumptions C41_crossing_is_good_until_cancelled.
Print Assumptions C41_not_crossing_is_cancelled.

Example C41_example :
  reports_of (demo [sell 1 5 10; Insert (mk_order 2 true 4 2 20 fill_or_kill)]) =
  [mk_report placed false 10 0 5 1; mk_report cancelled true 20 direct_order 4 2].
Proof. vm_compute. reflexivity. Qed.

(** * C42: quotes *)
(** After the best bid is cancelled, there is no bid although an order to buy rests. *)
Theorem C42_after_cancel_refuted : exists b, demo [buy 1 5 10; buy 2 4 3; Cancel 0] = Ok b /\
  bid demo_decode b = Ok None /\
  resting (b_reports b) = [mk_entry 1 true 4 3 2] /\ orders 20 b = Ok [1].
Proof.
  destruct (demo [buy 1 5 10; buy 2 4 3; Cancel 0]) as [b| | |] eqn:E; try (vm_compute in E; discriminate E).
  exists b. split; [reflexivity|]. vm_compute in E. injection E as <-. vm_compute. repeat split.
Qed.
Print Assumptions C42_after_cancel_refuted.
(** So the book can become crossed: a seller at 3 does not trade with the buyer at 4. *)
Theorem C42_crossed_refuted : exists b, demo [buy 1 5 10; buy 2 4 3; Cancel 0; sell 3 3 1] = Ok b /\
  resting (b_reports b) = [mk_entry 1 true 4 3 2; mk_entry 8 false 3 1 3].
Proof.
  destruct (demo [buy 1 5 10; buy 2 4 3; Cancel 0; sell 3 3 1]) as [b| | |] eqn:E; try (vm_compute in E; discriminate E).
  exists b. split; [reflexivity|]. vm_compute in E. injection E as <-. vm_compute. repeat split.
Qed.
Print Assumptions C42_crossed_refuted.
(** An order to sell at the lowest price is quoted as a bid, and sellers trade with it. *)
Theorem C42_lowest_ask_refuted : exists b, demo [sell 1 1 10] = Ok b /\
  bid demo_decode b = Ok (Some 1) /\ resting (b_reports b) = [mk_entry 0 false 1 10 1] /\
  exists b', operate 1 11 2 demo_encode demo_decode false 20 b (sell 2 1 4) = Ok b' /\
    b_reports b' = b_reports b ++ [mk_report matched false 4 direct_order 1 2; mk_report matched true 4 0 1 1].
Proof.
  destruct (demo [sell 1 1 10]) as [b| | |] eqn:E; try (vm_compute in E; discriminate E).
  exists b. split; [reflexivity|].
  destruct (operate 1 11 2 demo_encode demo_decode false 20 b (sell 2 1 4)) as [b'| | |] eqn:E';
    try (exfalso; revert E'; vm_compute in E; injection E as <-; vm_compute; discriminate).
  vm_compute in E. injection E as <-. vm_compute in E'. injection E' as <-. split; [reflexivity|]. split; [reflexivity|].
  eexists. split; [reflexivity|]. reflexivity.
Qed.
Print Assumptions C42_lowest_ask_refuted.
(** Executing the last order at the lowest price leaves the best bid before the first level: the
    next quote or order reads out of bounds. *)
Theorem C42_lowest_bid_refuted : exists b, demo [buy 1 1 10; sell 2 1 10] = Ok b /\
  bid demo_decode b = Undefined /\
  forall owner limit quantity, 1 <= limit < 11 -> 0 < quantity ->
    operate 1 11 2 demo_encode demo_decode false 20 b (sell owner limit quantity) = Undefined.
Proof.
  destruct (demo [buy 1 1 10; sell 2 1 10]) as [b| | |] eqn:E; try (vm_compute in E; discriminate E).
  exists b. split; [reflexivity|]. vm_compute in E. injection E as <-. split; [vm_compute; reflexivity|].
  intros owner limit quantity Hl Hq. unfold operate, sell, insert. cbn [o_lot o_limit o_quantity o_buy o_lifetime].
  change (negb (2 =? 2)) with false. cbv iota.
  replace (negb (valid 1 11 limit) || (quantity <=? 0)) with false by (unfold valid; lia).
  replace ((demo_encode limit <? 0) || (Z.of_nat (length (b_levels _)) <=? demo_encode limit)) with false.
  2: { assert (C : limit = 1 \/ limit = 2 \/ limit = 3 \/ limit = 4 \/ limit = 5 \/ limit = 6 \/ limit = 7 \/ limit = 8 \/ limit = 9 \/ limit = 10) by lia.
       destruct C as [C|[C|[C|[C|[C|[C|[C|[C|[C|C]]]]]]]]]; subst limit; vm_compute; reflexivity. }
  reflexivity.
Qed.
Print Assumptions C42_lowest_bid_refuted.

Example C42_example : exists b, demo [buy 1 5 10; buy 2 4 3; sell 3 7 2; sell 4 4 11] = Ok b /\
  bid demo_decode b = Ok (Some 4) /\ ask demo_decode b = Ok (Some 7) /\
  resting (b_reports b) = [mk_entry 1 true 4 2 2; mk_entry 2 false 7 2 3].
Proof.
  destruct (demo [buy 1 5 10; buy 2 4 3; sell 3 7 2; sell 4 4 11]) as [b| | |] eqn:E; try (vm_compute in E; discriminate E).
  exists b. split; [reflexivity|]. vm_compute in E. injection E as <-. vm_compute. repeat split.
Qed.

(** * C77: cancelling an order that is gone *)
(** Order 0 was filled.  Cancelling it is reported as a cancellation, and the other order, 1, then
    disappears without any report when it is cancelled. *)
Theorem C77_filled_refuted : exists b b' b'', demo [sell 1 5 10; sell 2 5 3; buy 3 6 10] = Ok b /\
  resting (b_reports b) = [mk_entry 1 false 5 3 2] /\
  operate 1 11 2 demo_encode demo_decode false 20 b (Cancel 0) = Ok b' /\
  b_reports b' = b_reports b ++ [mk_report cancelled false 0 0 5 1] /\
  operate 1 11 2 demo_encode demo_decode false 20 b' (Cancel 1) = Ok b'' /\
  b_reports b'' = b_reports b' /\ orders 20 b'' = Ok [].
Proof.
  destruct (demo [sell 1 5 10; sell 2 5 3; buy 3 6 10]) as [b| | |] eqn:E; try (vm_compute in E; discriminate E).
  destruct (operate 1 11 2 demo_encode demo_decode false 20 b (Cancel 0)) as [b'| | |] eqn:E';
    try (exfalso; revert E'; vm_compute in E; injection E as <-; vm_compute; discriminate).
  destruct (operate 1 11 2 demo_encode demo_decode false 20 b' (Cancel 1)) as [b''| | |] eqn:E'';
    try (exfalso; revert E''; vm_compute in E; injection E as <-; vm_compute in E'; injection E' as <-; vm_compute; discriminate).
  exists b, b', b''. split; [reflexivity|]. split; [vm_compute in E; injection E as <-; reflexivity|].
  split; [exact E'|]. split; [vm_compute in E; injection E as <-; vm_compute in E'; injection E' as <-; reflexivity|].
  split; [exact E''|].
  vm_compute in E. injection E as <-. vm_compute in E'. injection E' as <-. vm_compute in E''. injection E'' as <-.
  vm_compute. repeat split.
Qed.
Print Assumptions C77_filled_refuted.
(** Cancelling an order again right after it was cancelled throws, whatever the book (unless it has
    the default lot and currency). *)
Theorem C77_twice_throws : forall lowest highest encode decode h b b',
  cancel lowest highest encode decode false h b = Ok b' -> b_reports b' <> b_reports b ->
  cancel lowest highest encode decode false h b' = Exception.
Proof. exact cancel_twice. Qed.
Print Assumptions C77_twice_throws.
(** Cancelling an order that was filled is without effect only if there is no other order with its limit. *)
Theorem C77_filled_alone : forall lowest highest encode decode comparable h b d v i,
  bid decode b = Ok d -> r_limit (data (b_pool b) (slot (b_pool b) h)) = Some v -> lowest <= v <= highest -> encode v = Z.of_nat i ->
  nth_error (b_levels b) i = Some (None, None) ->
  cancel lowest highest encode decode comparable h b = Ok b.
Proof.
  intros lowest highest encode decode comparable h b d v i B L R E N. unfold cancel. rewrite B, L. cbn [bind_result].
  assert (valid lowest highest v = true) as -> by (unfold valid; lia). cbn [negb]. rewrite E. unfold level. rewrite Nat2Z.id, N.
  assert (Z.of_nat i <? 0 = false) as -> by lia. reflexivity.
Qed.
Print Assumptions C77_filled_alone.
Example C77_filled_example : exists b, demo [sell 1 5 10; buy 3 6 10; buy 2 4 3] = Ok b /\ operate 1 11 2 demo_encode demo_decode false 20 b (Cancel 0) = Ok b /\ orders 20 b = Ok [8].
Proof.
  destruct (demo [sell 1 5 10; buy 3 6 10; buy 2 4 3]) as [b| | |] eqn:E; try (vm_compute in E; discriminate E).
  exists b. split; [reflexivity|]. vm_compute in E. injection E as <-. vm_compute. repeat split.
Qed.
Example C77_example : demo [sell 1 5 10; sell 2 5 3; Cancel 0; Cancel 0] = Exception.
Proof. vm_compute. reflexivity. Qed.
