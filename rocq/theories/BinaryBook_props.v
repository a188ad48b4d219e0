(** Property theorems C29–C38: [binary_tree_order_book]. *)
From Verif Require Import Base Identity BinaryBook BinaryBook_spec BinaryBook_proofs BinaryBook_proofs2 BinaryBook_proofs3.

(** A history used in the examples: two asks and a bid, a crossing buy that fills the first ask
    and part of the second, and a cancellation. *)
Definition ord (s : side) (w : Z) (p q : Z) : order := mk_order GTC s 7 [w] p q.
Definition demo : list op :=
  [Insert (ord Sell 1 101 5); Insert (ord Sell 2 101 4); Insert (ord Buy 3 99 6); Insert (ord Buy 4 101 7)].
Ltac val := cbv [demo app]; split;
  [repeat (apply Forall_cons; [first [exact I | vm_compute; split; congruence]|]); apply Forall_nil
  |vm_compute; reflexivity].
Lemma demo_valid : valid demo.
Proof. val. Qed.
Lemma demo_valid2 : valid (demo ++ [Insert (ord Sell 5 98 8)]).
Proof. val. Qed.
Lemma demo_valid3 : valid (demo ++ [Cancel 1]).
Proof. val. Qed.

(** C29 *)
Theorem C29_book_never_crossed : forall h, valid h ->
  let b := after h in
  (forall x y, In x (resting_side Buy b) -> In y (resting_side Sell b) -> o_limit (snd x) < o_limit (snd y)) /\
  (forall x, In x (resting b) -> 0 < o_quantity (snd x)) /\
  is_highest (bid b) (resting_side Buy b) /\ is_lowest (ask b) (resting_side Sell b).
Proof. exact book_uncrossed. Qed.
Print Assumptions C29_book_never_crossed.
Example C29_case : valid demo /\ bid (after demo) = Some 99 /\ ask (after demo) = Some 101
  /\ resting (after demo) = [(2, ord Buy 3 99 6); (1, ord Sell 2 101 2)].
Proof. split; [exact demo_valid|]. vm_compute. auto. Qed.

(** C30 *)
Theorem C30_order_accounted_for : forall h o, valid (h ++ [Insert o]) ->
  let rs := snd (insert (after h) o) in
  o_quantity o = total to_taker rs + total (is_state Placed) rs /\
  total (is_state Cancelled) rs = 0.
Proof. exact conservation_order. Qed.
Print Assumptions C30_order_accounted_for.
Theorem C30_reports_come_in_pairs : forall h o, valid (h ++ [Insert o]) ->
  exists ts rem, snd (insert (after h) o) = flat_map (reports_of_trade o) ts ++ placement_of (after h) o rem /\
    0 <= rem /\
    Forall (fun t => let '(i, m, q) := t in In (i, m) (resting (after h)) /\ can_trade o m /\ 0 < q <= o_quantity m) ts.
Proof. exact insert_trades. Qed.
Print Assumptions C30_reports_come_in_pairs.
Theorem C30_resting_quantity_changes_by_reports : forall h o i, valid (h ++ [Insert o]) -> 0 <= i < W64 - 1 ->
  let rs := snd (insert (after h) o) in
  resting_quantity i (fst (insert (after h) o)) =
  resting_quantity i (after h) - total (for_id i (is_state Matched)) rs + total (for_id i (is_state Placed)) rs.
Proof. exact maker_drop. Qed.
Print Assumptions C30_resting_quantity_changes_by_reports.
Theorem C30_history_conserves : forall h, valid h ->
  inserted h = total (is_state Matched) (reports_of h) + total (is_state Cancelled) (reports_of h)
               + quantity_of (resting (after h)) /\
  total to_taker (reports_of h) = total to_maker (reports_of h) /\
  (forall i, 0 <= i < W64 - 1 -> total (for_id i (is_state Placed)) (reports_of h) =
     total (for_id i (is_state Matched)) (reports_of h) + total (for_id i (is_state Cancelled)) (reports_of h)
     + resting_quantity i (after h)).
Proof. exact conservation_history. Qed.
Print Assumptions C30_history_conserves.
Example C30_case : valid (demo ++ [Cancel 1]) /\ inserted (demo ++ [Cancel 1]) = 22
  /\ total to_taker (reports_of (demo ++ [Cancel 1])) = 7
  /\ total (is_state Cancelled) (reports_of (demo ++ [Cancel 1])) = 2
  /\ quantity_of (resting (after (demo ++ [Cancel 1]))) = 6
  /\ resting_quantity 1 (after demo) = 2.
Proof. split; [exact demo_valid3|]. vm_compute. auto. Qed.

(** C31 *)
Theorem C31_trade_prices : forall h o, valid (h ++ [Insert o]) -> forall r, In r (snd (insert (after h) o)) ->
  rp_state r = Matched ->
  (match o_side o with Buy => rp_limit r <= o_limit o | Sell => o_limit o <= rp_limit r end) /\
  exists i m, In (i, m) (resting (after h)) /\ rp_limit r = o_limit m /\
    ((rp_id r = i /\ rp_owner r = o_owner m /\ rp_side r = opposite (o_side o)) \/
     (rp_id r = W64 - 1 /\ rp_owner r = o_owner o /\ rp_side r = o_side o)).
Proof. exact trade_prices. Qed.
Print Assumptions C31_trade_prices.
Example C31_case : valid (demo ++ [Insert (ord Sell 5 98 8)]) /\
  map rp_limit (snd (insert (after demo) (ord Sell 5 98 8))) = [99; 99; 98].
Proof. split; [exact demo_valid2|]. vm_compute. auto. Qed.

(** C32 *)
Theorem C32_price_time_priority : forall h o, valid (h ++ [Insert o]) ->
  let b := after h in let rs := snd (insert b o) in let b' := fst (insert b o) in
  exists full part untouched,
    Permutation (full ++ part ++ untouched) (resting_side (opposite (o_side o)) b) /\
    StronglySorted (priority (o_side o)) (full ++ part ++ untouched) /\
    (length part <= 1)%nat /\
    map rp_id (filter to_maker rs) = map fst (full ++ part) /\
    (forall x, In x full -> total (for_id (fst x) to_maker) rs = o_quantity (snd x) /\ ~ In (fst x) (map fst (resting b'))) /\
    (forall x, In x part -> 0 < total (for_id (fst x) to_maker) rs < o_quantity (snd x) /\ total (is_state Placed) rs = 0) /\
    (forall x, In x untouched -> In x (resting b') /\ (can_trade o (snd x) -> total (is_state Placed) rs = 0)).
Proof. exact price_time_priority. Qed.
Print Assumptions C32_price_time_priority.
Example C32_case : valid demo /\
  map rp_id (filter to_maker (snd (insert (after (firstn 3 demo)) (ord Buy 4 101 7)))) = [0; 1].
Proof. split; [exact demo_valid|]. vm_compute. auto. Qed.

(** C33 *)
Theorem C33_identifiers_fresh : forall h, valid h ->
  (exists k, ids_of Placed (reports_of h) = map Z.of_nat (seq 0 k)) /\
  NoDup (map fst (resting (after h))) /\
  (forall i, In i (map fst (resting (after h))) -> In i (ids_of Placed (reports_of h))).
Proof. exact ids_sequence. Qed.
Print Assumptions C33_identifiers_fresh.
Example C33_case : ids_of Placed (reports_of (demo ++ [Insert (ord Sell 5 98 8)])) = [0; 1; 2; 3].
Proof. vm_compute. auto. Qed.

(** C34 *)
Theorem C34_cancel_exact : forall h i, valid h ->
  let b := after h in
  (forall r, In (i, r) (resting b) ->
     snd (cancel b i) = [mk_report Cancelled (o_side r) (o_quantity r) i (o_limit r) (o_owner r)] /\
     resting (fst (cancel b i)) = filter (fun x => negb (fst x =? i)) (resting b)) /\
  (~ In i (map fst (resting b)) -> cancel b i = (b, [])).
Proof. exact cancel_exact. Qed.
Print Assumptions C34_cancel_exact.
Theorem C34_cancel_exhausted_is_noop : forall h i, valid h -> 0 <= i < W64 - 1 ->
  total (for_id i (is_state Placed)) (reports_of h) =
    total (for_id i (is_state Matched)) (reports_of h) + total (for_id i (is_state Cancelled)) (reports_of h) ->
  cancel (after h) i = (after h, []).
Proof. exact exhausted_not_resting. Qed.
Print Assumptions C34_cancel_exhausted_is_noop.
Example C34_case : In (1, ord Sell 2 101 2) (resting (after demo)) /\
  snd (cancel (after demo) 1) = [mk_report Cancelled Sell 2 1 101 [2]] /\
  cancel (after demo) 0 = (after demo, []) /\
  total (for_id 0 (is_state Placed)) (reports_of demo) = 5.
Proof. vm_compute. auto. Qed.

(** C35: [orders()] also lists every cancelled order. *)
Theorem C35_orders_are_resting_plus_cancelled : forall h, valid h ->
  StronglySorted Z.lt (orders (after h)) /\
  forall i, In i (orders (after h)) <->
    In i (map fst (resting (after h))) \/ In i (ids_of Cancelled (reports_of h)).
Proof. exact orders_exact. Qed.
Print Assumptions C35_orders_are_resting_plus_cancelled.
Theorem C35_orders_after_cancel_refuted : exists h i, valid h /\
  In i (orders (after h)) /\ ~ In i (map fst (resting (after h))).
Proof.
  exists (demo ++ [Cancel 1]), 1. split; [exact demo_valid3|]. vm_compute. split; [auto|]. intuition congruence.
Qed.
Print Assumptions C35_orders_after_cancel_refuted.
Example C35_case : orders (after demo) = [1; 2] /\ orders (after (demo ++ [Cancel 1])) = [1; 2].
Proof. vm_compute. auto. Qed.

(** C36: lifetimes are ignored; what rests is exactly what the book could not fill. *)
Theorem C36_lifetime_has_no_effect : forall b o t,
  snd (insert b (with_lifetime o t)) = snd (insert b o).
Proof. exact lifetime_ignored. Qed.
Print Assumptions C36_lifetime_has_no_effect.
Theorem C36_rests_exactly_what_is_unavailable : forall h o, valid (h ++ [Insert o]) ->
  total (is_state Placed) (snd (insert (after h) o)) = Z.max 0 (o_quantity o - available o (resting (after h))) /\
  total to_taker (snd (insert (after h) o)) = Z.min (o_quantity o) (available o (resting (after h))).
Proof. exact rests_exactly_rest. Qed.
Print Assumptions C36_rests_exactly_what_is_unavailable.
Theorem C36_fill_or_kill_refuted : exists h o, valid (h ++ [Insert o]) /\ o_lifetime o = FOK /\
  0 < total to_taker (snd (insert (after h) o)) < o_quantity o /\
  In o (map (fun x => with_quantity (snd x) (o_quantity o)) (resting (fst (insert (after h) o)))).
Proof.
  exists [Insert (ord Sell 1 101 5)], (mk_order FOK Buy 7 [2] 101 8).
  split; [val|].
  vm_compute. auto.
Qed.
Print Assumptions C36_fill_or_kill_refuted.
Theorem C36_immediate_or_cancel_refuted : exists h o, valid (h ++ [Insert o]) /\ o_lifetime o = IOC /\
  resting (fst (insert (after h) o)) <> [].
Proof.
  exists [], (mk_order IOC Buy 7 [2] 101 8).
  split; [val|].
  vm_compute. split; congruence.
Qed.
Print Assumptions C36_immediate_or_cancel_refuted.
Example C36_case : available (ord Buy 9 101 1) (resting (after demo)) = 2.
Proof. vm_compute. reflexivity. Qed.

(** C37 *)
Theorem C37_reports_reconstruct_book : forall h, valid h ->
  Permutation (client (reports_of h)) (map view_of (resting (after h))).
Proof. exact client_reconstructs. Qed.
Print Assumptions C37_reports_reconstruct_book.
Example C37_case : client (reports_of demo) = [mk_view 1 Sell 2 101 [2]; mk_view 2 Buy 6 99 [3]].
Proof. vm_compute. reflexivity. Qed.

(** C38: the naive book has exactly one run for a history, with the reports and resting orders
    of the real one. *)
Theorem C38_refines_naive_book : forall h, valid h -> exists n l,
  (forall rs st, naive_run (0, []) h rs st <-> rs = reports_of h /\ st = (n, l)) /\
  Permutation (resting (after h)) l /\
  is_highest (bid (after h)) (filter (fun r => side_eqb (o_side (snd r)) Buy) l) /\
  is_lowest (ask (after h)) (filter (fun r => side_eqb (o_side (snd r)) Sell) l).
Proof. exact refinement. Qed.
Print Assumptions C38_refines_naive_book.
Example C38_case : valid (demo ++ [Insert (ord Sell 5 98 8)]) /\ length (reports_of demo) = 7%nat.
Proof. split; [exact demo_valid2|]. vm_compute. reflexivity. Qed.
