(** C63-C65, C83-C86: the exchange. *)
From Coq Require Import ZifyBool ZifyNat.
From Verif Require Import Base Identity Identity_proofs BinaryBook Exchange Exchange_spec Exchange_proofs.

(** After a snapshot request at any time from 1 on, every later order that moves the market leads to
    another update, for ever. *)
Theorem C63_snapshot_streams_refuted : forall delay traded books h0 x ms0 a depth instruments sym s x1 h x2 ms2 t b o x3 ms3,
  operate delay h0 (new_exchange traded books) = Ret (x, ms0) ->
  1 <= s -> In sym instruments -> handle delay s (Request a Snapshot depth instruments) x = Ret (x1, []) ->
  Forall (fun te => asks_by a (snd te) = false) h -> operate delay h x1 = Ret (x2, ms2) ->
  timed s (h ++ [(t, NewOrder b o)]) -> o_symbol o = sym -> newsworthy x2 b o -> handle delay t (NewOrder b o) x2 = Ret (x3, ms3) ->
  updates a sym ms3 <> [].
Proof.
  intros delay traded books h0 x ms0 a depth is sym s x1 h x2 ms2 t b o x3 ms3 H0 Hs I H1 F H Ti Es Nw H3.
  pose proof (operate_uniq _ _ _ _ _ (new_uniq traded books) H0) as U. pose proof (handle_uniq _ _ _ _ _ _ U H1) as U1.
  cbn [handle] in H1. destruct (request_all s a Snapshot depth is (x_subscriptions x)) as [subs| |] eqn:R; try discriminate. injection H1 as <-.
  eapply (live_updates delay a sym h t b o _ x2 ms2 x3 ms3 (mk_subscription depth s (W64 - 1)) s); eauto.
  - rewrite subscribed_in. cbn [x_subscriptions]. rewrite (snapshot_sub _ _ _ _ _ _ sym R). assert (existsb (Z.eqb sym) is = true) as ->; [|reflexivity]. apply existsb_exists. exists sym. split; [exact I|apply Z.eqb_refl].
  - split; cbn; [lia|]. right. split; [reflexivity|lia].
Qed.
Print Assumptions C63_snapshot_streams_refuted.
(** After a snapshot request at time 0 there is no update at all before time 2^64 - 1. *)
Theorem C63_time_zero_refuted : forall delay traded books h0 x ms0 a depth instruments sym x1 h x2 ms2,
  operate delay h0 (new_exchange traded books) = Ret (x, ms0) ->
  In sym instruments -> handle delay 0 (Request a Snapshot depth instruments) x = Ret (x1, []) ->
  Forall (fun te => asks_by a (snd te) = false /\ fst te < W64 - 1) h -> operate delay h x1 = Ret (x2, ms2) ->
  updates a sym ms2 = [].
Proof.
  intros delay traded books h0 x ms0 a depth is sym x1 h x2 ms2 H0 I H1 F H.
  pose proof (operate_uniq _ _ _ _ _ (new_uniq traded books) H0) as U. pose proof (handle_uniq _ _ _ _ _ _ U H1) as U1.
  cbn [handle] in H1. destruct (request_all 0 a Snapshot depth is (x_subscriptions x)) as [subs| |] eqn:R; try discriminate. injection H1 as <-.
  apply (never_due delay a sym h _ x2 ms2 depth U1); [|exact F|exact H].
  rewrite subscribed_in. cbn [x_subscriptions]. rewrite (snapshot_sub _ _ _ _ _ _ sym R). assert (existsb (Z.eqb sym) is = true) as ->; [|reflexivity]. apply existsb_exists. exists sym. split; [exact I|apply Z.eqb_refl].
Qed.
Print Assumptions C63_time_zero_refuted.
Definition demo_order (s : side) (limit quantity : Z) (owner : identity) : order := mk_order GTC s 5 owner limit quantity.
(** One ticker, 5; agent 9 asks for a snapshot at time 3 (or 0) and is sent an update for each of three orders (for none). *)
Example C63_example :
  let orders := [(4, NewOrder [1] (demo_order Buy 100 10 [1])); (6, NewOrder [2] (demo_order Sell 100 4 [2])); (6, NewOrder [2] (demo_order Buy 101 1 [2]))] in
  (exists x ms, operate (fun _ => 0) ((3, Request [9] Snapshot 1 [5]) :: orders) (new_exchange [5] [(5, (empty_book, []))]) = Ret (x, ms) /\ length (updates [9] 5 ms) = 3%nat) /\
  (exists x ms, operate (fun _ => 0) ((0, Request [9] Snapshot 1 [5]) :: orders) (new_exchange [5] [(5, (empty_book, []))]) = Ret (x, ms) /\ length (updates [9] 5 ms) = 0%nat).
Proof. split; eexists _, _; (split; [vm_compute; reflexivity|vm_compute; reflexivity]). Qed.

(** No position is ever recorded, whatever happens at the exchange. *)
Theorem C64_never_recorded_refuted : forall delay traded books h x ms t a,
  operate delay h (new_exchange traded books) = Ret (x, ms) -> position_of x t a = None.
Proof.
  intros delay traded books h x ms t a H. destruct (new_positions traded [] ltac:(discriminate)) as [N1 N2]. cbv zeta in *.
  assert (E : x_positions x = x_positions (new_exchange traded books)).
  { eapply operate_positions; [|exact H]. intros u Hu. cbn [x_traded new_exchange x_positions] in *. apply N2. now left. }
  unfold position_of. rewrite E. cbn [x_positions new_exchange]. destruct (f_find Z.eqb t _) as [l|] eqn:F; [|reflexivity]. rewrite (N1 t l F). reflexivity.
Qed.
Print Assumptions C64_never_recorded_refuted.
Example C64_example : exists x, operate (fun _ => 0) [(1, Logon [9] [(5, 1000)])] (new_exchange [5; 6] [(5, (empty_book, []))]) = Ret (x, []) /\
  position_of x 5 [9] = None /\ x_positions x = [(5, []); (6, [])].
Proof. eexists. vm_compute. repeat split. Qed.

(** Over any history, the reports sent about a ticker, each to its owner, are in order exactly those the book
    produced, except that those of cancellations since the last order are still waiting. *)
Theorem C65_reports_once : forall delay traded books h x ms sym,
  f_find Z.eqb sym books = Some (empty_book, []) -> operate delay h (new_exchange traded books) = Ret (x, ms) ->
  notices sym ms ++ map (fun r => (rp_owner r, r)) (unsent x sym) = map (fun r => (rp_owner r, r)) (reports_of (calls sym h)) /\
  book_of x sym = Some (after (calls sym h)).
Proof.
  intros delay traded books h x ms sym F H.
  destruct (operate_reports delay sym h (new_exchange traded books) x ms empty_book [] (new_uniq traded books) F H) as (b' & l' & rs & F' & R & N & A).
  unfold unsent, book_of, reports_of, after. rewrite F', R. cbn [option_map fst snd]. split; [|reflexivity]. cbn [app] in A. rewrite A, map_app, <- N. reflexivity.
Qed.
Print Assumptions C65_reports_once.
(** An order's reports are sent at once, and the list is empty afterwards. *)
Theorem C65_order : forall delay traded books h x ms now sender o x' ms' b,
  operate delay h (new_exchange traded books) = Ret (x, ms) -> handle delay now (NewOrder sender o) x = Ret (x', ms') ->
  book_of x (o_symbol o) = Some b ->
  notices (o_symbol o) ms' = map (fun r => (rp_owner r, r)) (unsent x (o_symbol o) ++ snd (insert b o)) /\ unsent x' (o_symbol o) = [].
Proof.
  intros delay traded books h x ms now sender o x' ms' b H H' B. pose proof (operate_uniq _ _ _ _ _ (new_uniq traded books) H) as U.
  cbn [handle] in H'. unfold insert_order, book_of, unsent in *. destruct (f_find Z.eqb (o_symbol o) (x_books x)) as [[bk p]|] eqn:F; [|discriminate]. cbn [option_map fst] in B. injection B as ->.
  destruct (insert b o) as [b' new]. cbn [snd]. remember (negb (option_eqb (ask b) (ask b') && option_eqb (bid b) (bid b'))) as changed.
  pose proof (send_reports_spec delay now sender o changed b' (p ++ new) (x_subscriptions x) U) as S.
  destruct (send_reports delay now sender o changed b' (p ++ new) (x_subscriptions x)) as [subs ms0]. injection H' as <- <-. destruct S as (_ & N & _).
  split; [exact N|]. cbn [x_books]. rewrite (f_find_assign Z.eqb Zeqb_eq), F, Z.eqb_refl. reflexivity.
Qed.
Print Assumptions C65_order.
Example C65_example : exists x ms, operate (fun _ => 0)
    [(4, NewOrder [1] (demo_order Buy 100 10 [1])); (6, NewOrder [2] (demo_order Sell 99 4 [2]))] (new_exchange [5] [(5, (empty_book, []))]) = Ret (x, ms) /\
  notices 5 ms = [([1], mk_report Placed Buy 10 0 100 [1]); ([2], mk_report Matched Sell 4 direct_order 100 [2]); ([1], mk_report Matched Buy 4 0 100 [1])] /\ unsent x 5 = [].
Proof. eexists _, _. vm_compute. repeat split. Qed.

(** A cancellation through the exchange sends nothing; its report waits for the next order. *)
Theorem C84_cancellation_silent_refuted : forall delay now sym ident x b pending,
  f_find Z.eqb sym (x_books x) = Some (b, pending) ->
  exists x', handle delay now (CancelOrder sym ident) x = Ret (x', []) /\ unsent x' sym = pending ++ snd (cancel b ident).
Proof.
  intros delay now sym ident x b p F. cbn [handle]. unfold cancel_order, unsent. rewrite F. destruct (cancel b ident) as [b' new]. eexists. split; [reflexivity|].
  cbn [x_books snd]. rewrite (f_find_assign Z.eqb Zeqb_eq), F, Z.eqb_refl. reflexivity.
Qed.
Print Assumptions C84_cancellation_silent_refuted.
(** Agent 1's cancellation at time 5 is reported at time 8, in a message about agent 2's order. *)
Example C84_example : exists x ms, operate (fun _ => 0)
    [(4, NewOrder [1] (demo_order Buy 100 10 [1])); (5, CancelOrder 5 0); (8, NewOrder [2] (demo_order Sell 120 4 [2]))] (new_exchange [5] [(5, (empty_book, []))]) = Ret (x, ms) /\
  In (Execution [1] 8 (demo_order Sell 120 4 [2]) (mk_report Cancelled Buy 10 0 100 [1])) ms.
Proof. eexists _, _. split; [vm_compute; reflexivity|]. vm_compute. auto. Qed.

(** Reports take the time the sender's messages take, whoever receives them. *)
Theorem C85_latency_of_sender : forall delay traded books h x ms now sender o x' ms' a t d r,
  operate delay h (new_exchange traded books) = Ret (x, ms) -> handle delay now (NewOrder sender o) x = Ret (x', ms') ->
  In (Execution a t d r) ms' -> a = rp_owner r /\ t = w64 (now + delay sender).
Proof.
  intros delay traded books h x ms now sender o x' ms' a t d r H H' I. pose proof (operate_uniq _ _ _ _ _ (new_uniq traded books) H) as U.
  cbn [handle] in H'. unfold insert_order in *. destruct (f_find Z.eqb (o_symbol o) (x_books x)) as [[bk p]|] eqn:F; [|discriminate].
  destruct (insert bk o) as [b' new]. remember (negb (option_eqb (ask bk) (ask b') && option_eqb (bid bk) (bid b'))) as changed.
  pose proof (send_reports_spec delay now sender o changed b' (p ++ new) (x_subscriptions x) U) as S.
  destruct (send_reports delay now sender o changed b' (p ++ new) (x_subscriptions x)) as [subs ms0]. injection H' as <- <-. destruct S as (_ & _ & E & _).
  destruct (E r a t d I) as (_ & ? & ? & _). auto.
Qed.
Print Assumptions C85_latency_of_sender.
(** So a participant with a slow connection hears of a trade as early as the fast one that caused it. *)
Theorem C85_refuted : exists delay h x ms a t d r,
  operate delay h (new_exchange [5] [(5, (empty_book, []))]) = Ret (x, ms) /\ In (Execution a t d r) ms /\ t < 6 + delay a /\ Forall (fun te => 4 <= fst te) h /\ rp_state r = Matched.
Proof.
  exists (fun a => if id_eqb a [1] then 10 else 1), [(4, NewOrder [1] (demo_order Buy 100 10 [1])); (6, NewOrder [2] (demo_order Sell 99 4 [2]))].
  eexists _, _, [1], 7, _, (mk_report Matched Buy 4 0 100 [1]). split; [vm_compute; reflexivity|]. split; [vm_compute; auto|]. split; [vm_compute; reflexivity|]. split; [|reflexivity].
  repeat constructor; cbn; lia.
Qed.
Print Assumptions C85_refuted.

(** Messages to agent 1 take 10, to agent 2 only 1: both hear of the trade at time 6 at time 7, and agent 1 heard of its own order at 14. *)
Example C85_case : exists x ms, operate (fun a => if id_eqb a [1] then 10 else 1)
    [(4, NewOrder [1] (demo_order Buy 100 10 [1])); (6, NewOrder [2] (demo_order Sell 99 4 [2]))] (new_exchange [5] [(5, (empty_book, []))]) = Ret (x, ms) /\
  ms = [Execution [1] 14 (demo_order Buy 100 10 [1]) (mk_report Placed Buy 10 0 100 [1]);
        Execution [2] 7 (demo_order Sell 99 4 [2]) (mk_report Matched Sell 4 direct_order 100 [2]);
        Execution [1] 7 (demo_order Sell 99 4 [2]) (mk_report Matched Buy 4 0 100 [1])].
Proof. eexists _, _. split; [vm_compute; reflexivity|]. reflexivity. Qed.

(** A stream of market data about a ticker of which nobody has ever asked for a snapshot stays silent. *)
Theorem C83_stream_ignored_refuted : forall delay traded books h x ms a sym,
  Forall (fun te => forall b d is, snd te = Request b Snapshot d is -> ~ In sym is) h ->
  operate delay h (new_exchange traded books) = Ret (x, ms) -> updates a sym ms = [].
Proof.
  intros delay traded books h x ms a sym F. assert (M : f_find Z.eqb sym (x_subscriptions (new_exchange traded books)) = None) by reflexivity.
  pose proof (new_uniq traded books) as U. revert M U. generalize (new_exchange traded books) as x0. revert ms. induction F as [|[t e] h P F IH]; intros ms x0 M U H; cbn [operate] in H; [now injection H as <- <-|].
  destruct (handle delay t e x0) as [[x1 m1]| |] eqn:E; try discriminate. destruct (operate delay h x1) as [[x2 m2]| |] eqn:E2; try discriminate. injection H as <- <-.
  destruct (handle_map delay t e x0 x1 m1 sym U M E P) as [M1 N1]. pose proof (handle_uniq _ _ _ _ _ _ U E) as U1. rewrite updates_app, N1. exact (IH m2 x1 M1 U1 E2).
Qed.
Print Assumptions C83_stream_ignored_refuted.
(** Once there has been one, a stream leads to an update on every order that moves the market. *)
Theorem C83_stream : forall delay traded books h0 x ms0 a depth instruments sym s x1 h x2 ms2 t b o x3 ms3,
  operate delay h0 (new_exchange traded books) = Ret (x, ms0) ->
  0 <= s -> In sym instruments -> f_find Z.eqb sym (x_subscriptions x) <> None -> handle delay s (Request a Stream depth instruments) x = Ret (x1, []) ->
  Forall (fun te => asks_by a (snd te) = false) h -> operate delay h x1 = Ret (x2, ms2) ->
  timed s (h ++ [(t, NewOrder b o)]) -> o_symbol o = sym -> newsworthy x2 b o -> handle delay t (NewOrder b o) x2 = Ret (x3, ms3) ->
  updates a sym ms3 <> [].
Proof.
  intros delay traded books h0 x ms0 a depth is sym s x1 h x2 ms2 t b o x3 ms3 H0 Hs I Hm H1 F H Ti Es Nw H3.
  pose proof (operate_uniq _ _ _ _ _ (new_uniq traded books) H0) as U. pose proof (handle_uniq _ _ _ _ _ _ U H1) as U1.
  cbn [handle] in H1. destruct (request_all s a Stream depth is (x_subscriptions x)) as [subs| |] eqn:R; try discriminate. injection H1 as <-.
  eapply (live_updates delay a sym h t b o _ x2 ms2 x3 ms3 (mk_subscription depth s 0) s); eauto.
  - rewrite subscribed_in. cbn [x_subscriptions]. exact (stream_sub _ _ _ _ _ _ sym R Hm I).
  - split; cbn; [lia|]. now left.
Qed.
Print Assumptions C83_stream.
Example C83_example :
  let orders := [(4, NewOrder [1] (demo_order Buy 100 10 [1])); (6, NewOrder [2] (demo_order Sell 100 4 [2]))] in
  (exists x ms, operate (fun _ => 0) ((3, Request [9] Stream 1 [5]) :: orders) (new_exchange [5] [(5, (empty_book, []))]) = Ret (x, ms) /\ length (updates [9] 5 ms) = 0%nat) /\
  (exists x ms, operate (fun _ => 0) ((2, Request [8] Snapshot 1 [5]) :: (3, Request [9] Stream 1 [5]) :: orders) (new_exchange [5] [(5, (empty_book, []))]) = Ret (x, ms) /\ length (updates [9] 5 ms) = 2%nat).
Proof. split; eexists _, _; (split; [vm_compute; reflexivity|vm_compute; reflexivity]). Qed.

(** Cancelling a subscription stops the updates. *)
Theorem C86_cancelled : forall delay traded books h0 x ms0 a depth sym s x1 h x2 ms2,
  operate delay h0 (new_exchange traded books) = Ret (x, ms0) -> handle delay s (Request a CancelData depth [sym]) x = Ret (x1, []) ->
  Forall (fun te => asks_by a (snd te) = false) h -> operate delay h x1 = Ret (x2, ms2) -> updates a sym ms2 = [].
Proof.
  intros delay traded books h0 x ms0 a depth sym s x1 h x2 ms2 H0 H1 F H.
  pose proof (operate_uniq _ _ _ _ _ (new_uniq traded books) H0) as U. pose proof (handle_uniq _ _ _ _ _ _ U H1) as U1.
  apply (no_subscription delay a sym h x1 x2 ms2 U1); [|exact F|exact H]. cbn [handle request_all request_one] in H1. rewrite subscribed_in. unfold sub_in.
  destruct (f_find Z.eqb sym (x_subscriptions x)) as [l|] eqn:M.
  - destruct (f_find id_eqb a l) as [q|] eqn:Q; [|discriminate]. injection H1 as <-. cbn [x_subscriptions]. rewrite (f_find_assign Z.eqb Zeqb_eq), M, Z.eqb_refl.
    rewrite (f_find_erase id_eqb id_eqb_eq). + assert (id_eqb a a = true) as -> by now apply id_eqb_eq. reflexivity.
    + unfold uniq in U. rewrite Forall_forall in U. apply (U (sym, l)). now apply (f_find_in Z.eqb Zeqb_eq).
  - injection H1 as <-. cbn [x_subscriptions]. rewrite M. reflexivity.
Qed.
Print Assumptions C86_cancelled.
(** Cancelling one that was never made is undefined as soon as somebody has subscribed to the ticker. *)
Theorem C86_unsubscribed_refuted : forall delay now x a depth sym l,
  f_find Z.eqb sym (x_subscriptions x) = Some l -> subscribed x sym a = None -> handle delay now (Request a CancelData depth [sym]) x = UB.
Proof. intros delay now x a depth sym l F S. unfold subscribed in S. cbn [handle request_all request_one]. rewrite F in *. rewrite S. reflexivity. Qed.
Print Assumptions C86_unsubscribed_refuted.
Example C86_example :
  operate (fun _ => 0) [(2, Request [8] Snapshot 1 [5]); (3, Request [9] CancelData 1 [5])] (new_exchange [5] [(5, (empty_book, []))]) = UB /\
  operate (fun _ => 0) [(2, Request [8] Snapshot 1 [5]); (3, Request [8] CancelData 1 [5]); (4, Request [8] CancelData 1 [5])] (new_exchange [5] [(5, (empty_book, []))]) = UB.
Proof. vm_compute. split; reflexivity. Qed.
