(** C220: the log of orders. *)
From Coq Require Import ZifyBool ZifyNat.
From Verif Require Import Base Identity Identity_proofs BinaryBook BinaryBook_spec BinaryBook_proofs Exchange Exchange_spec Exchange_proofs Exchange_props Feed_spec Feed_proofs OrderLog OrderLog_spec.

(** Whatever happens to a participant's orders is logged only when that participant sends an order in the same symbol:
    not when another's order trades with one that rests, and not when one is cancelled. *)
Theorem C220_senders_refuted : forall delay traded books h x ms l,
  operate delay h (new_exchange traded books) = Ret (x, ms) -> In l (order_log delay h (new_exchange traded books)) ->
  exists o, In (l_time l, NewOrder (l_owner l) o) h /\ o_symbol o = l_symbol l.
Proof.
  intros delay traded books h x ms l _. generalize (new_exchange traded books) as y. induction h as [|[t e] h IH]; intros y I; cbn [order_log] in I; [destruct I|].
  apply in_app_or in I as [I|I].
  - destruct e as [c sup|c|c ty dp is|c o|s i]; try (destruct I; fail). unfold log_order in I. destruct (f_find Z.eqb (o_symbol o) (x_books y)) as [[b p]|]; [|destruct I].
    apply in_map_iff in I as (r & <- & I). apply filter_In in I as [_ I]. apply id_eqb_eq in I. exists o. cbn [entry_of l_time l_owner l_symbol]. rewrite I. split; [now left|reflexivity].
  - destruct (handle delay t e y) as [[y' m]| |]; [|destruct I|destruct I]. destruct (IH y' I) as (o & J & Q). exists o. split; [now right|exact Q].
Qed.
Print Assumptions C220_senders_refuted.
(** Otherwise an order is logged in full: its sender's trades and the placement of the rest, each once, in order and at the time of
    the order. *)
Theorem C220_order : forall delay traded books h x ms t o x' ms' b,
  (forall c, f_find Z.eqb (o_symbol o) books = Some c -> snd c = []) -> operate delay h (new_exchange traded books) = Ret (x, ms) ->
  book_of x (o_symbol o) = Some b -> handle delay t (NewOrder (o_owner o) o) x = Ret (x', ms') ->
  exists added, order_log delay (h ++ [(t, NewOrder (o_owner o) o)]) (new_exchange traded books) = order_log delay h (new_exchange traded books) ++ added /\
  Forall (fun l => l_time l = t) added /\
  Forall2 (tells_of (o_symbol o)) (filter (fun r => id_eqb (rp_owner r) (o_owner o)) (snd (insert b o))) (filter (fun l => negb (of_cancellation l)) added).
Proof.
  intros delay traded books h x ms t o x' ms' b Q0 H B H'.
  assert (Q : quiet (unsent x (o_symbol o)) /\ Forall (fun r => rp_state r = Cancelled) (unsent x (o_symbol o))).
  { split.
    - apply (operate_quiet delay h (o_symbol o) _ x ms H). unfold unsent. cbn [new_exchange x_books]. destruct (f_find Z.eqb (o_symbol o) books) as [[c l]|]; [|constructor]. specialize (Q0 _ eq_refl). cbn [snd] in Q0. subst l. constructor.
    - assert (G : Forall (fun r => rp_state r = Cancelled) (unsent (new_exchange traded books) (o_symbol o))).
      { unfold unsent. cbn [new_exchange x_books]. destruct (f_find Z.eqb (o_symbol o) books) as [[c l]|]; [|constructor]. specialize (Q0 _ eq_refl). cbn [snd] in Q0. subst l. constructor. }
      revert H G. generalize (new_exchange traded books) as y. intros y. revert y ms. clear. generalize (o_symbol o) as sym. intros sym. induction h as [|[t e] h IH]; intros y ms H G; cbn [operate] in H; [injection H as <- <-; exact G|].
      destruct (handle delay t e y) as [[x1 m1]| |] eqn:E; try discriminate. destruct (operate delay h x1) as [[x2 m2]| |] eqn:E2; try discriminate. injection H as -> <-. eapply IH; [exact E2|]. clear - E G.
      destruct e as [c sup|c|c ty dp is|c o|s i]; cbn [handle] in E.
      + injection E as <- <-. exact G.
      + injection E as <- <-. exact G.
      + destruct (request_all t c ty dp is (x_subscriptions y)); try discriminate. injection E as <- <-. exact G.
      + unfold insert_order in E. destruct (f_find Z.eqb (o_symbol o) (x_books y)) as [[bk p]|] eqn:F; [|discriminate]. destruct (insert bk o) as [b' nw]. destruct (send_reports _ _ _ _ _ _ _ _). injection E as <- <-.
        unfold unsent in *. cbn [x_books]. rewrite (f_find_assign Z.eqb Zeqb_eq), F. destruct (o_symbol o =? sym); [constructor|exact G].
      + injection E as <- <-. unfold cancel_order. destruct (f_find Z.eqb s (x_books y)) as [[bk p]|] eqn:F; [|exact G].
        assert (C : Forall (fun r => rp_state r = Cancelled) (snd (cancel bk i))).
        { unfold cancel. repeat (match goal with |- context [match ?c with _ => _ end] => destruct c end; cbn [snd]); repeat constructor. }
        destruct (cancel bk i) as [b' nw]. cbn [snd] in C. unfold unsent in *. cbn [x_books]. rewrite (f_find_assign Z.eqb Zeqb_eq), F. destruct (Z.eqb_spec s sym) as [->|]; [|exact G]. rewrite F in G. apply Forall_app. auto. }
  pose proof (insert_not_cancelled b o) as NC.
  exists (log_order t (o_owner o) o x). split.
  { clear - H. revert H. generalize (new_exchange traded books) as y. intros y. revert y ms. induction h as [|[u e] h IH]; intros y ms H; cbn [operate] in H.
    - injection H as <- <-. cbn [app order_log]. destruct (handle delay t (NewOrder (o_owner o) o) y) as [[? ?]| |]; now rewrite ?app_nil_r.
    - destruct (handle delay u e y) as [[x1 m1]| |] eqn:E; try discriminate. destruct (operate delay h x1) as [[x2 m2]| |] eqn:E2; try discriminate. injection H as -> <-.
      cbn [app order_log]. rewrite E, (IH x1 m2 E2), app_assoc. reflexivity. }
  unfold log_order. unfold book_of in B. unfold unsent in Q. destruct (f_find Z.eqb (o_symbol o) (x_books x)) as [[bk p]|]; [|discriminate]. cbn [option_map fst] in B. injection B as ->. destruct Q as [_ Q].
  split. { apply Forall_forall. intros l I. apply in_map_iff in I as (r & <- & _). reflexivity. }
  rewrite filter_app, map_app, filter_app.
  assert (P0 : filter (fun l => negb (of_cancellation l)) (map (entry_of t (o_symbol o)) (filter (fun r => id_eqb (rp_owner r) (o_owner o)) p)) = []).
  { clear - Q. induction Q as [|r p E Q IH]; cbn [filter map]; [reflexivity|]. destruct (id_eqb (rp_owner r) (o_owner o)); [|exact IH]. cbn [map filter]. unfold of_cancellation at 1. cbn [entry_of l_state]. rewrite E. exact IH. }
  rewrite P0. cbn [app]. clear - NC. induction NC as [|r rs E NC IH]; cbn [filter map]; [constructor|]. destruct (id_eqb (rp_owner r) (o_owner o)); [|exact IH]. cbn [map filter]. unfold of_cancellation at 1. cbn [entry_of l_state].
  destruct (rp_state r) eqn:S; try contradiction; cbn [negb]; (constructor; [repeat split; cbn [entry_of l_symbol l_limit l_owner l_side l_quantity l_state]; congruence|exact IH]).
Qed.
Print Assumptions C220_order.
(** Agent 1 places two orders in ticker 5; agent 2 trades with the first, and agent 1 cancels the second. Agent 2's trade and the
    placements are logged; agent 1's trade and cancellation are not, until agent 1 sends another order. *)
Example C220_case :
  let h := [(4, NewOrder [1] (demo_order Sell 100 10 [1])); (5, NewOrder [1] (demo_order Sell 102 3 [1])); (6, NewOrder [2] (demo_order Buy 100 4 [2])); (7, CancelOrder 5 1)] in
  let e t limit a s q state := mk_log_entry t 5 limit a s q state in
  (exists x ms, operate (fun _ => 0) h (new_exchange [5] [(5, (empty_book, []))]) = Ret (x, ms) /\ In ([1], mk_report Matched Sell 4 0 100 [1]) (notices 5 ms) /\ unsent x 5 <> []) /\
  order_log (fun _ => 0) h (new_exchange [5] [(5, (empty_book, []))]) = [e 4 100 [1] Sell 10 Placed; e 5 102 [1] Sell 3 Placed; e 6 100 [2] Buy 4 Matched] /\
  order_log (fun _ => 0) (h ++ [(9, NewOrder [1] (demo_order Buy 90 1 [1]))]) (new_exchange [5] [(5, (empty_book, []))]) =
    [e 4 100 [1] Sell 10 Placed; e 5 102 [1] Sell 3 Placed; e 6 100 [2] Buy 4 Matched; e 9 102 [1] Sell 3 Cancelled; e 9 90 [1] Buy 1 Placed].
Proof.
  split; [|split; vm_compute; reflexivity]. do 2 eexists. split; [vm_compute; reflexivity|]. split; [vm_compute; tauto|vm_compute; discriminate].
Qed.
