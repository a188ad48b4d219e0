(** C221, C222: access to an exchange. *)
From Coq Require Import ZifyBool ZifyNat.
From Verif Require Import Base Identity Identity_proofs BinaryBook BinaryBook_spec BinaryBook_proofs BinaryBook_proofs2 BinaryBook_proofs3 BinaryBook_props Exchange Exchange_spec Exchange_proofs Exchange_props Feed_spec Feed_proofs Access Access_spec.

(** Whoever asks for it, an order is cancelled... *)
Theorem C221_cancelled_by_anyone_refuted : forall delay traded books h x ms sym b t a i r,
  f_find Z.eqb sym books = Some (empty_book, []) -> operate delay (received h) (new_exchange traded books) = Ret (x, ms) -> valid (calls sym (received h)) ->
  book_of x sym = Some b -> In (i, r) (resting b) ->
  exists x' b', handle delay t (callback a (ToCancel sym i)) x = Ret (x', []) /\ book_of x' sym = Some b' /\ resting b' = filter (fun y => negb (fst y =? i)) (resting b).
Proof.
  intros delay traded books h x ms sym b t a i r Fb H V B I. destruct (C65_reports_once delay traded books (received h) x ms sym Fb H) as [_ B']. rewrite B in B'. injection B' as ->.
  destruct (C34_cancel_exact (calls sym (received h)) i V) as [C _]. destruct (C r I) as [_ C2]. cbn [callback handle]. unfold cancel_order. unfold book_of in B.
  destruct (f_find Z.eqb sym (x_books x)) as [[b p]|] eqn:F; [|discriminate]. cbn [option_map fst] in B. injection B as ->.
  destruct (cancel (after (calls sym (received h))) i) as [b' nw]. cbn [fst] in C2. eexists _, b'. split; [reflexivity|]. split; [|exact C2].
  unfold book_of. cbn [x_books]. rewrite (f_find_assign Z.eqb Zeqb_eq), Z.eqb_refl, F. reflexivity.
Qed.
Print Assumptions C221_cancelled_by_anyone_refuted.
(** ...and whoever sends it, an order is placed and matched in the name of the owner it states. *)
Theorem C221_placed_by_anyone_refuted : forall delay traded books h x ms t a o b,
  operate delay (received h) (new_exchange traded books) = Ret (x, ms) -> book_of x (o_symbol o) = Some b ->
  exists x' ms', handle delay t (callback a (ToOrder o)) x = Ret (x', ms') /\ book_of x' (o_symbol o) = Some (fst (insert b o)) /\
  notices (o_symbol o) ms' = map (fun r => (rp_owner r, r)) (unsent x (o_symbol o) ++ snd (insert b o)).
Proof.
  intros delay traded books h x ms t a o b H B. destruct (handle delay t (callback a (ToOrder o)) x) as [[x' ms']| |] eqn:E.
  - exists x', ms'. split; [reflexivity|]. cbn [callback] in E. destruct (C65_order delay traded books (received h) x ms t a o x' ms' b H E B) as [N _]. split; [|exact N].
    cbn [handle] in E. unfold insert_order in E. unfold book_of in *. destruct (f_find Z.eqb (o_symbol o) (x_books x)) as [[bk p]|] eqn:F; [|discriminate]. cbn [option_map fst] in B. injection B as ->.
    destruct (insert b o) as [b' nw]. destruct (send_reports _ _ _ _ _ _ _ _). injection E as <- <-. cbn [x_books]. rewrite (f_find_assign Z.eqb Zeqb_eq), Z.eqb_refl, F. reflexivity.
  - exfalso. cbn [callback handle] in E. unfold insert_order in E. unfold book_of in B. destruct (f_find Z.eqb (o_symbol o) (x_books x)) as [[bk p]|]; [|discriminate]. destruct (insert bk o). destruct (send_reports _ _ _ _ _ _ _ _). discriminate.
  - exfalso. cbn [callback handle] in E. unfold insert_order in E. unfold book_of in B. destruct (f_find Z.eqb (o_symbol o) (x_books x)) as [[bk p]|]; [|discriminate]. destruct (insert bk o). destruct (send_reports _ _ _ _ _ _ _ _). discriminate.
Qed.
Print Assumptions C221_placed_by_anyone_refuted.
(** No order is cancelled that nobody asked to cancel. *)
Theorem C221_requested : forall delay traded books h x ms sym a r,
  f_find Z.eqb sym books = Some (empty_book, []) -> operate delay (received h) (new_exchange traded books) = Ret (x, ms) ->
  In (a, r) (notices sym ms) -> rp_state r = Cancelled -> exists t c, In (t, c, ToCancel sym (rp_id r)) h.
Proof.
  intros delay traded books h x ms sym a r Fb H I S. destruct (C65_reports_once delay traded books (received h) x ms sym Fb H) as [N _].
  assert (J : In (a, r) (map (fun r => (rp_owner r, r)) (reports_of (calls sym (received h))))) by (rewrite <- N; apply in_or_app; now left).
  apply in_map_iff in J as (r' & E & J). injection E as _ ->. unfold reports_of in J.
  assert (G : forall ops b, In r (snd (run b ops)) -> In (Cancel (rp_id r)) ops).
  { clear - S. induction ops as [|p ops IH]; intros b J; cbn [run] in J; [destruct J|]. pose proof (insert_not_cancelled b) as NC. destruct (step b p) as [b1 r1] eqn:E. specialize (IH b1). destruct (run b1 ops) as [b2 r2]. cbn [snd] in *.
    apply in_app_or in J as [J|J]; [|right; auto]. left. destruct p as [o|i]; cbn [step] in E.
    - specialize (NC o). rewrite E in NC. cbn [snd] in NC. rewrite Forall_forall in NC. elim (NC r J S).
    - f_equal. clear - E J. unfold cancel in E. repeat (match type of E with context [match ?c with _ => _ end] => destruct c end); injection E as <- <-; cbn [In] in J; intuition (subst; reflexivity). }
  apply G in J. unfold calls, received in J. apply in_flat_map in J as ([t e] & J1 & J2). apply in_map_iff in J1 as ([[u c] m] & E & J1). injection E as -> <-. cbn [snd] in J2. exists t, c.
  destruct m as [sup| |ty dp is|o|s i]; cbn [callback] in J2; try (destruct J2; fail).
  - destruct (o_symbol o =? sym); cbn [In] in J2; intuition discriminate.
  - destruct (Z.eqb_spec s sym) as [->|]; cbn [In] in J2; [|destruct J2]. destruct J2 as [J2|[]]. injection J2 as ->. exact J1.
Qed.
Print Assumptions C221_requested.
(** Agent 3 cancels what agent 1 has placed, and sells to agent 2 in the name of agent 1. *)
Example C221_case :
  let h := [(4, [1], ToOrder (demo_order Sell 100 10 [1])); (5, [2], ToOrder (demo_order Buy 90 2 [2]))] in
  exists x ms b, operate (fun _ => 0) (received h) (new_exchange [5] [(5, (empty_book, []))]) = Ret (x, ms) /\ valid (calls 5 (received h)) /\ book_of x 5 = Some b /\
  In (0, demo_order Sell 100 10 [1]) (resting b) /\
  (exists x' ms', operate (fun _ => 0) (received (h ++ [(6, [3], ToCancel 5 0); (7, [3], ToOrder (demo_order Sell 80 2 [1]))])) (new_exchange [5] [(5, (empty_book, []))]) = Ret (x', ms') /\
   In ([1], mk_report Cancelled Sell 10 0 100 [1]) (notices 5 ms') /\ In ([1], mk_report Matched Sell 2 direct_order 90 [1]) (notices 5 ms')).
Proof.
  do 3 eexists. split; [vm_compute; reflexivity|]. split; [split; [cbv [received map callback calls flat_map snd o_symbol demo_order Z.eqb Pos.eqb app]; repeat (apply Forall_cons; [vm_compute; split; congruence|]); apply Forall_nil|vm_compute; reflexivity]|].
  split; [vm_compute; reflexivity|]. split; [vm_compute; tauto|]. do 2 eexists. split; [vm_compute; reflexivity|]. split; vm_compute; tauto.
Qed.

(** Logging on and off makes no difference to trading: without these messages the same reports and market data are sent, and
    the books are the same. *)
Theorem C222_no_difference_refuted : forall delay traded books h x ms,
  operate delay (received h) (new_exchange traded books) = Ret (x, ms) ->
  exists x', operate delay (received (trading h)) (new_exchange traded books) = Ret (x', ms) /\ x_books x' = x_books x /\ x_subscriptions x' = x_subscriptions x.
Proof.
  intros delay traded books h x ms H.
  assert (G : forall h x1 x2 y ms, operate delay (received h) x1 = Ret (y, ms) -> x_books x1 = x_books x2 -> x_subscriptions x1 = x_subscriptions x2 ->
    exists y', operate delay (received (trading h)) x2 = Ret (y', ms) /\ x_books y' = x_books y /\ x_subscriptions y' = x_subscriptions y).
  { clear. induction h as [|[[t a] m] h IH]; intros x1 x2 y ms H B S; cbn [received map operate] in H; [injection H as <- <-; exists x2; cbn [trading filter received map operate]; auto|].
    destruct (handle delay t (callback a m) x1) as [[x3 m3]| |] eqn:E; try discriminate. fold (received h) in H. destruct (operate delay (received h) x3) as [[x4 m4]| |] eqn:E4; try discriminate. injection H as <- <-.
    destruct m as [sup| |ty dp is|o|s i]; cbn [callback handle] in E; cbn [trading filter].
    - injection E as <- <-. cbn [app]. exact (IH _ x2 x4 m4 E4 B S).
    - injection E as <- <-. cbn [app]. exact (IH _ x2 x4 m4 E4 B S).
    - cbn [received map callback operate handle]. rewrite <- S. destruct (request_all t a ty dp is (x_subscriptions x1)) as [subs| |]; try discriminate. injection E as <- <-.
      destruct (IH _ (mk_exchange (x_traded x2) (x_books x2) (x_positions x2) subs) x4 m4 E4 B eq_refl) as (y' & Y1 & Y2). exists y'. unfold received, trading in Y1. rewrite Y1. auto.
    - cbn [received map callback operate handle]. unfold insert_order in *. rewrite <- B, <- S. destruct (f_find Z.eqb (o_symbol o) (x_books x1)) as [[bk p]|]; [|discriminate]. destruct (insert bk o) as [b' nw].
      destruct (send_reports _ _ _ _ _ _ _ _) as [subs ms0]. injection E as <- <-.
      destruct (IH _ (mk_exchange (x_traded x2) (f_assign Z.eqb (o_symbol o) (b', []) (x_books x1)) (x_positions x2) subs) x4 m4 E4 eq_refl eq_refl) as (y' & Y1 & Y2). exists y'. unfold received, trading in Y1. rewrite Y1. auto.
    - injection E as <- <-. cbn [received map callback operate handle]. cbn [app].
      destruct (IH _ (cancel_order s i x2) x4 m4 E4) as (y' & Y1 & Y2); [| |exists y'; unfold received, trading in Y1; rewrite Y1; auto];
        unfold cancel_order; rewrite <- B; (destruct (f_find Z.eqb s (x_books x1)) as [[bk p]|]; [|assumption]); destruct (cancel bk i); cbn [x_books x_subscriptions]; congruence. }
  exact (G h _ _ x ms H eq_refl eq_refl).
Qed.
Print Assumptions C222_no_difference_refuted.
(** Agent 1 has logged out, agent 2 has never logged on; they trade. *)
Example C222_case :
  let h := [(1, [1], ToLogon [(5, 10)]); (2, [1], ToLogout); (4, [1], ToOrder (demo_order Sell 100 10 [1])); (5, [2], ToOrder (demo_order Buy 100 4 [2]))] in
  exists x ms, operate (fun _ => 0) (received h) (new_exchange [5] [(5, (empty_book, []))]) = Ret (x, ms) /\ length (trading h) = 2%nat /\
  In ([2], mk_report Matched Buy 4 direct_order 100 [2]) (notices 5 ms) /\ In ([1], mk_report Matched Sell 4 0 100 [1]) (notices 5 ms).
Proof. do 2 eexists. split; [vm_compute; reflexivity|]. split; [reflexivity|]. split; vm_compute; tauto. Qed.
