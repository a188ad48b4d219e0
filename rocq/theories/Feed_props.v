(** C218, C219: market data. *)
From Coq Require Import ZifyBool ZifyNat.
From Verif Require Import Base Identity Identity_proofs BinaryBook BinaryBook_spec BinaryBook_proofs BinaryBook_proofs2 BinaryBook_props Exchange Exchange_spec Exchange_proofs Exchange_props Feed_spec Feed_proofs.

Lemma subscriber delay traded books h0 x ms0 a depth instruments sym s x1 h x2 ms2 t o x3 ms3 bk :
  (forall c, f_find Z.eqb sym books = Some c -> snd c = []) -> operate delay h0 (new_exchange traded books) = Ret (x, ms0) ->
  0 <= s -> In sym instruments -> f_find Z.eqb sym (x_subscriptions x) <> None -> handle delay s (Request a Stream depth instruments) x = Ret (x1, []) ->
  Forall (fun te => asks_by a (snd te) = false) h -> operate delay h x1 = Ret (x2, ms2) ->
  timed s (h ++ [(t, NewOrder (o_owner o) o)]) -> o_symbol o = sym -> book_of x2 sym = Some bk -> handle delay t (NewOrder (o_owner o) o) x2 = Ret (x3, ms3) ->
  quiet (unsent x2 sym) /\
  updates a sym ms3 = map (update_of delay t a sym (fst (insert bk o))) (filter (tells x2 (o_owner o) o) (unsent x2 sym ++ snd (insert bk o))).
Proof.
  intros Q0 H0 Hs I Hm H1 F H Ti Es Bk H3. split.
  { apply (operate_quiet delay h sym x1 x2 ms2 H). apply (handle_quiet delay s _ x x1 [] sym H1). apply (operate_quiet delay h0 sym _ x ms0 H0).
    unfold unsent. cbn [new_exchange x_books]. destruct (f_find Z.eqb sym books) as [[c l]|]; [|constructor]. specialize (Q0 _ eq_refl). cbn [snd] in Q0. subst l. constructor. }
  pose proof (operate_uniq _ _ _ _ _ (new_uniq traded books) H0) as U. pose proof (handle_uniq _ _ _ _ _ _ U H1) as U1.
  cbn [handle] in H1. destruct (request_all s a Stream depth instruments (x_subscriptions x)) as [subs| |] eqn:R; try discriminate. injection H1 as <-.
  eapply (live_exact delay a sym h t (o_owner o) o _ x2 ms2 x3 ms3 (mk_subscription depth s 0) s bk); eauto.
  - rewrite subscribed_in. cbn [x_subscriptions]. exact (stream_sub _ _ _ _ _ _ sym R Hm I).
  - split; cbn; [lia|]. now left.
Qed.

(** A subscriber is told of each trade twice when the trade moves the best bid or ask... *)
Theorem C218_twice_refuted : forall delay traded books h0 x ms0 a depth instruments sym s x1 h x2 ms2 t o x3 ms3 b,
  (forall c, f_find Z.eqb sym books = Some c -> snd c = []) -> operate delay h0 (new_exchange traded books) = Ret (x, ms0) ->
  0 <= s -> In sym instruments -> f_find Z.eqb sym (x_subscriptions x) <> None -> handle delay s (Request a Stream depth instruments) x = Ret (x1, []) ->
  Forall (fun te => asks_by a (snd te) = false) h -> operate delay h x1 = Ret (x2, ms2) ->
  timed s (h ++ [(t, NewOrder (o_owner o) o)]) -> o_symbol o = sym -> book_of x2 sym = Some b -> handle delay t (NewOrder (o_owner o) o) x2 = Ret (x3, ms3) ->
  absent (o_owner o) b -> bid (fst (insert b o)) <> bid b \/ ask (fst (insert b o)) <> ask b ->
  feed (updates a sym ms3) = flat_map (fun trade => [trade; trade]) (trades_of (o_owner o) (snd (insert b o))).
Proof.
  intros delay traded books h0 x ms0 a depth is sym s x1 h x2 ms2 t o x3 ms3 b Q0 H0 Hs I Hm H1 F H Ti Es Bk H3 Ab Ch.
  destruct (subscriber delay traded books h0 x ms0 a depth is sym s x1 h x2 ms2 t o x3 ms3 b Q0 H0 Hs I Hm H1 F H Ti Es Bk H3) as [Q ->].
  rewrite feed_updates, filter_app, named_app, (named_quiet _ _ Q). cbn [app].
  assert (Tr : forall r, tells x2 (o_owner o) o r = true).
  { intros r. unfold tells. rewrite Es, Bk. destruct (option_eqb (ask b) (ask (fst (insert b o)))) eqn:E1; [|apply orb_true_r]. destruct (option_eqb (bid b) (bid (fst (insert b o)))) eqn:E2; [|apply orb_true_r].
    apply option_eqb_eq in E1. apply option_eqb_eq in E2. destruct Ch; congruence. }
  assert (Id : forall l, filter (tells x2 (o_owner o) o) l = l) by (induction l as [|r l IH]; cbn [filter]; [reflexivity|rewrite Tr, IH; reflexivity]). rewrite Id.
  destruct (insert_pairs b o) as (ps & tail & -> & Qt & P). pose proof (absent_pairs _ _ _ Ab P) as P'.
  assert (T0 : named tail = []) by (clear - Qt; induction Qt as [|r l E Qt IH]; [reflexivity|cbn [named flat_map]; rewrite E; exact IH]).
  now rewrite named_app, T0, app_nil_r, named_all, trades_app, (trades_quiet _ _ Qt), app_nil_r, (trades_pairs o ps P').
Qed.
Print Assumptions C218_twice_refuted.
(** ...and once otherwise. *)
Theorem C218_once : forall delay traded books h0 x ms0 a depth instruments sym s x1 h x2 ms2 t o x3 ms3 b,
  (forall c, f_find Z.eqb sym books = Some c -> snd c = []) -> operate delay h0 (new_exchange traded books) = Ret (x, ms0) ->
  0 <= s -> In sym instruments -> f_find Z.eqb sym (x_subscriptions x) <> None -> handle delay s (Request a Stream depth instruments) x = Ret (x1, []) ->
  Forall (fun te => asks_by a (snd te) = false) h -> operate delay h x1 = Ret (x2, ms2) ->
  timed s (h ++ [(t, NewOrder (o_owner o) o)]) -> o_symbol o = sym -> book_of x2 sym = Some b -> handle delay t (NewOrder (o_owner o) o) x2 = Ret (x3, ms3) ->
  bid (fst (insert b o)) = bid b -> ask (fst (insert b o)) = ask b ->
  feed (updates a sym ms3) = trades_of (o_owner o) (snd (insert b o)).
Proof.
  intros delay traded books h0 x ms0 a depth is sym s x1 h x2 ms2 t o x3 ms3 b Q0 H0 Hs I Hm H1 F H Ti Es Bk H3 E1 E2.
  destruct (subscriber delay traded books h0 x ms0 a depth is sym s x1 h x2 ms2 t o x3 ms3 b Q0 H0 Hs I Hm H1 F H Ti Es Bk H3) as [Q ->].
  rewrite feed_updates, filter_app, named_app, (named_quiet _ _ Q). cbn [app]. rewrite <- named_trades. f_equal. apply filter_ext. intros r. unfold tells. rewrite Es, Bk, E1, E2.
  rewrite (proj2 (option_eqb_eq (ask b) (ask b)) eq_refl), (proj2 (option_eqb_eq (bid b) (bid b)) eq_refl). reflexivity.
Qed.
Print Assumptions C218_once.
(** Agent 9 follows ticker 5, where agent 1 offers 10 at 100.  Agent 2 buys 4, which leaves the best ask as it is: told once.
    Agent 3 then buys the other 6: told twice, so that the feed shows 16 units traded of the 10 on offer. *)
Example C218_case :
  let setup := [(2, Request [8] Snapshot 1 [5])] in
  let orders := [(4, NewOrder [1] (demo_order Sell 100 10 [1])); (6, NewOrder [2] (demo_order Buy 100 4 [2])); (7, NewOrder [3] (demo_order Buy 101 6 [3]))] in
  exists x ms x1 x2 ms2, operate (fun _ => 0) setup (new_exchange [5] [(5, (empty_book, []))]) = Ret (x, ms) /\
  handle (fun _ => 0) 3 (Request [9] Stream 1 [5]) x = Ret (x1, []) /\ f_find Z.eqb 5 (x_subscriptions x) <> None /\ timed 3 orders /\
  operate (fun _ => 0) orders x1 = Ret (x2, ms2) /\ feed (updates [9] 5 ms2) = [(100, 4); (100, 6); (100, 6)].
Proof.
  do 5 eexists. split; [vm_compute; reflexivity|]. split; [vm_compute; reflexivity|]. split; [vm_compute; discriminate|]. split; [cbn; unfold W64; lia|]. split; vm_compute; reflexivity.
Qed.

(** Market data show the best bid and ask after the order, to everyone at the time and under the symbol due... *)
Theorem C219_best : forall delay traded books h x ms t sender o x' ms' c t' sym trades asks bids,
  f_find Z.eqb (o_symbol o) books = Some (empty_book, []) -> operate delay h (new_exchange traded books) = Ret (x, ms) ->
  valid (calls (o_symbol o) h ++ [Insert o]) ->
  handle delay t (NewOrder sender o) x = Ret (x', ms') -> In (MarketData c t' sym trades asks bids) ms' ->
  t' = w64 (t + delay c) /\ sym = o_symbol o /\ exists b, book_of x' sym = Some b /\
  (length asks <= 1)%nat /\ is_lowest (hd_error (map fst asks)) (resting_side Sell b) /\
  (length bids <= 1)%nat /\ is_highest (hd_error (map fst bids)) (resting_side Buy b).
Proof.
  intros delay traded books h x ms t sender o x' ms' c t' sym trades asks bids Fb H V H3 I.
  destruct (C65_reports_once delay traded books h x ms (o_symbol o) Fb H) as [_ B]. pose proof (operate_uniq _ _ _ _ _ (new_uniq traded books) H) as U.
  assert (A : after (calls (o_symbol o) h ++ [Insert o]) = fst (insert (after (calls (o_symbol o) h)) o)).
  { unfold after. rewrite run_app. destruct (run empty_book (calls (o_symbol o) h)) as [b1 r1]. cbn [run step fst]. destruct (insert b1 o). reflexivity. }
  destruct (C29_book_never_crossed _ V) as (_ & _ & Hi & Lo). rewrite A in Hi, Lo.
  cbn [handle] in H3. unfold insert_order in H3. unfold book_of in B. destruct (f_find Z.eqb (o_symbol o) (x_books x)) as [[bk pd]|] eqn:G; [|discriminate]. cbn [option_map fst] in B. injection B as ->.
  destruct (insert (after (calls (o_symbol o) h)) o) as [b' new]. cbn [fst] in Hi, Lo.
  remember (negb _) as changed. clear Heqchanged. destruct (send_reports delay t sender o changed b' (pd ++ new) (x_subscriptions x)) as [subs ms0] eqn:S. injection H3 as <- <-.
  assert (X : t' = w64 (t + delay c) /\ sym = o_symbol o /\ asks = to_list (ask b') /\ bids = to_list (bid b')).
  { clear - S I. revert subs ms0 S I. generalize (x_subscriptions x). induction (pd ++ new) as [|r rs IH]; intros l0 subs ms0 S I; cbn [send_reports] in S; [injection S as <- <-; destruct I|].
    destruct (match f_find Z.eqb (o_symbol o) l0 with Some _ => _ | None => _ end) as [subs' ms] eqn:E. destruct (send_reports delay t sender o changed b' rs subs') as [subs'' ms'] eqn:S'. injection S as <- <-.
    destruct I as [I|I]; [discriminate|]. apply in_app_or in I as [I|I]; [|exact (IH _ _ _ S' I)].
    destruct (f_find Z.eqb (o_symbol o) l0) as [l|]; [|injection E as <- <-; destruct I]. destruct (_ || changed); [|injection E as <- <-; destruct I].
    pose proof (update_only delay t (o_symbol o) r (is_match r) b' l) as Ko. destruct (update_subscribers delay t (o_symbol o) r (is_match r) b' l) as [l' m]. injection E as <- <-. cbn [snd] in Ko.
    destruct (Ko _ I) as (c' & s & _ & _ & Q). injection Q as -> -> -> -> -> ->. auto. }
  destruct X as (-> & -> & -> & ->). split; [reflexivity|]. split; [reflexivity|]. exists b'. split.
  { unfold book_of. cbn [x_books]. rewrite (f_find_assign Z.eqb Zeqb_eq), Z.eqb_refl, G. reflexivity. }
  unfold to_list. destruct (ask b'), (bid b'); cbn [length map fst hd_error]; (split; [lia|]); (split; [exact Lo|]); (split; [lia|exact Hi]).
Qed.
Print Assumptions C219_best.
(** ...but give its size as 1, whatever is there. *)
Theorem C219_size_refuted : forall delay traded books h x ms t sender o x' ms' c t' sym trades asks bids p q,
  operate delay h (new_exchange traded books) = Ret (x, ms) -> handle delay t (NewOrder sender o) x = Ret (x', ms') ->
  In (MarketData c t' sym trades asks bids) ms' -> In (p, q) (asks ++ bids) -> q = 1.
Proof.
  intros delay traded books h x ms t sender o x' ms' c t' sym trades asks bids p q _ H3 I J.
  cbn [handle] in H3. unfold insert_order in H3. destruct (f_find Z.eqb (o_symbol o) (x_books x)) as [[bk pd]|] eqn:G; [|discriminate].
  destruct (insert bk o) as [b' new]. remember (negb _) as changed. clear Heqchanged. destruct (send_reports delay t sender o changed b' (pd ++ new) (x_subscriptions x)) as [subs ms0] eqn:S. injection H3 as <- <-.
  assert (X : asks = to_list (ask b') /\ bids = to_list (bid b')).
  { clear - S I. revert subs ms0 S I. generalize (x_subscriptions x). induction (pd ++ new) as [|r rs IH]; intros l0 subs ms0 S I; cbn [send_reports] in S; [injection S as <- <-; destruct I|].
    destruct (match f_find Z.eqb (o_symbol o) l0 with Some _ => _ | None => _ end) as [subs' ms] eqn:E. destruct (send_reports delay t sender o changed b' rs subs') as [subs'' ms'] eqn:S'. injection S as <- <-.
    destruct I as [I|I]; [discriminate|]. apply in_app_or in I as [I|I]; [|exact (IH _ _ _ S' I)].
    destruct (f_find Z.eqb (o_symbol o) l0) as [l|]; [|injection E as <- <-; destruct I]. destruct (_ || changed); [|injection E as <- <-; destruct I].
    pose proof (update_only delay t (o_symbol o) r (is_match r) b' l) as Ko. destruct (update_subscribers delay t (o_symbol o) r (is_match r) b' l) as [l' m]. injection E as <- <-. cbn [snd] in Ko.
    destruct (Ko _ I) as (c' & s & _ & _ & Q). injection Q as -> -> -> -> -> ->. auto. }
  destruct X as [-> ->]. apply in_app_or in J as [J|J]; unfold to_list in J; [destruct (ask b')|destruct (bid b')]; cbn [In] in J; intuition congruence.
Qed.
Print Assumptions C219_size_refuted.
(** Six of ten units are left at 100. *)
Example C219_case :
  let h := [(2, Request [8] Snapshot 1 [5]); (4, NewOrder [1] (demo_order Sell 100 10 [1])); (5, NewOrder [1] (demo_order Sell 102 3 [1]))] in
  exists x ms x' ms' b, operate (fun _ => 0) h (new_exchange [5] [(5, (empty_book, []))]) = Ret (x, ms) /\ valid (calls 5 h ++ [Insert (demo_order Buy 100 4 [2])]) /\
  handle (fun _ => 0) 6 (NewOrder [2] (demo_order Buy 100 4 [2])) x = Ret (x', ms') /\ In (MarketData [8] 6 5 [(100, 4)] [(100, 1)] []) ms' /\
  book_of x' 5 = Some b /\ available Sell 100 b = 6.
Proof.
  do 5 eexists. split; [vm_compute; reflexivity|]. split; [split; [cbv [calls flat_map snd o_symbol demo_order Z.eqb Pos.eqb app]; repeat (apply Forall_cons; [vm_compute; split; congruence|]); apply Forall_nil|vm_compute; reflexivity]|]. split; [vm_compute; reflexivity|]. split; [vm_compute; auto|]. split; vm_compute; reflexivity.
Qed.
