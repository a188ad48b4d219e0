(** Model of an exchange agent - /repo/esl/economics/markets/centralized_exchange.hpp.
    Its books are binary tree order books (BinaryBook.v), its messages are those it creates.
    Tickers are numbers. *)
From Verif Require Import Base Identity BinaryBook.

(** Lines 106-157 [position_report]. *)
Record position := mk_position { p_supply : Z; p_bought : Z; p_sold : Z }.
(** Lines 174-190 [data_subscription]. *)
Record subscription := mk_subscription { s_depth : Z; s_start : Z; s_periodicity : Z }.

(** [boost::container::flat_map]; only iteration order depends on the order of the keys. *)
Section Maps.
Context {K V : Type} (eqb : K -> K -> bool).
Fixpoint f_find (k : K) (m : list (K * V)) : option V :=
  match m with
  | [] => None
  | (k', v) :: m' => if eqb k' k then Some v else f_find k m'
  end.
Fixpoint f_assign (k : K) (v : V) (m : list (K * V)) : list (K * V) :=
  match m with
  | [] => []
  | (k', x) :: m' => if eqb k' k then (k', v) :: m' else (k', x) :: f_assign k v m'
  end.
(** [emplace], [insert]: no effect when the key is present. *)
Definition f_emplace (k : K) (v : V) (m : list (K * V)) : list (K * V) :=
  match f_find k m with Some _ => m | None => m ++ [(k, v)] end.
(** Assignment through [operator[]], or insertion. *)
Definition f_put (k : K) (v : V) (m : list (K * V)) : list (K * V) :=
  match f_find k m with Some _ => f_assign k v m | None => m ++ [(k, v)] end.
Fixpoint f_erase (k : K) (m : list (K * V)) : list (K * V) :=
  match m with
  | [] => []
  | (k', x) :: m' => if eqb k' k then m' else (k', x) :: f_erase k m'
  end.
End Maps.

(** The state: tickers (market.hpp:52), books with the reports they hold ([basic_book::reports]),
    positions, subscriptions. *)
Record exchange := mk_exchange {
  x_traded : list Z;
  x_books : list (Z * (book * list report));
  x_positions : list (Z * list (identity * position));
  x_subscriptions : list (Z * list (identity * subscription)) }.
(** Lines 427-438: the constructor; the modeller adds the books afterwards. *)
Definition new_exchange (traded : list Z) (books : list (Z * (book * list report))) : exchange :=
  mk_exchange traded books (fold_left (fun m t => f_emplace Z.eqb t [] m) traded []) [].

(** The messages created (execution_report_message.hpp, market_data_message.hpp). *)
Inductive message :=
| Execution (recipient : identity) (arrival : Z) (details : order) (r : report)
| MarketData (recipient : identity) (arrival : Z) (symbol : Z) (trades : list (Z * Z)) (asks bids : list (Z * Z)).

Inductive request := Snapshot | CancelData | Stream.   (* market_data_request_message.hpp *)
Inductive event :=
| Logon (sender : identity) (supply : list (Z * Z))
| Logout (sender : identity)
| Request (sender : identity) (type : request) (depth : Z) (instruments : list Z)
| NewOrder (sender : identity) (o : order)
| CancelOrder (symbol : Z) (ident : Z).

Definition option_eqb (a b : option Z) : bool :=
  match a, b with Some x, Some y => x =? y | None, None => true | _, _ => false end.
(** Lines 411-416: the best quote, always with size 1. *)
Definition to_list (q : option Z) : list (Z * Z) := match q with Some x => [(x, 1)] | None => [] end.

Section Events.
(** [delay a] is the time the communication model samples for a message to [a], zero without a model
    (that samples differ from call to call is left out); [now] is the start of the step. *)
Context (delay : identity -> Z) (now : Z).

(** Lines 221-237 [logon_participant]. *)
Definition logon (sender : identity) (supply : list (Z * Z)) (x : exchange) : exchange :=
  let record m t :=
    let amount := match f_find Z.eqb t supply with Some q => q | None => 0 end in
    f_emplace Z.eqb t [(sender, mk_position amount 0 0)] m in
  mk_exchange (x_traded x) (x_books x) (fold_left record (x_traded x) (x_positions x)) (x_subscriptions x).
(** Lines 245-277 [logout_participant]. *)
Definition logout (sender : identity) (x : exchange) : exchange :=
  let leave m t :=
    match f_find Z.eqb t m with
    | None => m
    | Some l =>
        match f_find id_eqb sender l with
        | None => m
        | Some _ => match f_erase id_eqb sender l with [] => f_erase Z.eqb t m | l' => f_assign Z.eqb t l' m end
        end
    end in
  mk_exchange (x_traded x) (x_books x) (fold_left leave (x_traded x) (x_positions x)) (x_subscriptions x).

(** Lines 458-523: one instrument of a market data request; erasing the end iterator is undefined. *)
Definition request_one (sender : identity) (type : request) (depth i : Z)
  (subs : list (Z * list (identity * subscription))) : outcome (list (Z * list (identity * subscription))) :=
  match type with
  | Snapshot =>
      let l := match f_find Z.eqb i subs with Some l => l | None => [] end in
      Ret (f_put Z.eqb i (f_put id_eqb sender (mk_subscription depth now (W64 - 1)) l) subs)
  | CancelData =>
      match f_find Z.eqb i subs with
      | None => Ret subs
      | Some l => match f_find id_eqb sender l with None => UB | Some _ => Ret (f_assign Z.eqb i (f_erase id_eqb sender l) subs) end
      end
  | Stream =>
      match f_find Z.eqb i subs with
      | None => Ret subs
      | Some l => Ret (f_assign Z.eqb i (f_put id_eqb sender (mk_subscription depth now 0) l) subs)
      end
  end.
Fixpoint request_all (sender : identity) (type : request) (depth : Z) (instruments : list Z)
  (subs : list (Z * list (identity * subscription))) : outcome (list (Z * list (identity * subscription))) :=
  match instruments with
  | [] => Ret subs
  | i :: instruments' =>
      match request_one sender type depth i subs with
      | Ret subs' => request_all sender type depth instruments' subs'
      | Throw => Throw
      | UB => UB
      end
  end.

(** Lines 384-418: the subscribers of the symbol, on a report that warrants an update. *)
Fixpoint update_subscribers (symbol : Z) (r : report) (trade : bool) (b : book) (l : list (identity * subscription))
  : list (identity * subscription) * list message :=
  match l with
  | [] => ([], [])
  | (a, s) :: l' =>
      let '(rest, ms) := update_subscribers symbol r trade b l' in
      if w64 (s_start s + s_periodicity s) >? now then ((a, s) :: rest, ms)
      else ((a, mk_subscription (s_depth s) now (s_periodicity s)) :: rest,
            MarketData a (w64 (now + delay a)) symbol (if trade then [(rp_limit r, rp_quantity r)] else []) (to_list (ask b)) (to_list (bid b)) :: ms)
  end.
Definition is_match (r : report) : bool := match rp_state r with Matched => true | _ => false end.
(** Lines 310-420: the loop over the reports.  [changed] tells whether the best bid or ask did.
    The log of orders (lines 350-362) is in OrderLog.v.  Line 368 samples the delay to the sender. *)
Fixpoint send_reports (sender : identity) (o : order) (changed : bool) (b : book) (rs : list report)
  (subs : list (Z * list (identity * subscription))) : list (Z * list (identity * subscription)) * list message :=
  match rs with
  | [] => (subs, [])
  | r :: rs' =>
      let notice := Execution (rp_owner r) (w64 (now + delay sender)) o r in
      let '(subs', ms) :=
        match f_find Z.eqb (o_symbol o) subs with
        | None => (subs, [])
        | Some l =>
            if (is_match r && id_eqb (rp_owner r) sender) || changed then
              let '(l', ms) := update_subscribers (o_symbol o) r (is_match r) b l in (f_assign Z.eqb (o_symbol o) l' subs, ms)
            else (subs, [])
        end in
      let '(subs'', ms') := send_reports sender o changed b rs' subs' in (subs'', notice :: ms ++ ms')
  end.
(** Lines 286-422 [insert_order]. *)
Definition insert_order (sender : identity) (o : order) (x : exchange) : outcome (exchange * list message) :=
  match f_find Z.eqb (o_symbol o) (x_books x) with
  | None => Throw
  | Some (b, pending) =>
      let '(b', new) := insert b o in
      let changed := negb (option_eqb (ask b) (ask b') && option_eqb (bid b) (bid b')) in
      let '(subs, ms) := send_reports sender o changed b' (pending ++ new) (x_subscriptions x) in
      Ret (mk_exchange (x_traded x) (f_assign Z.eqb (o_symbol o) (b', []) (x_books x)) (x_positions x) subs, ms)
  end.
(** Lines 578-586 [cancel]. *)
Definition cancel_order (symbol ident : Z) (x : exchange) : exchange :=
  match f_find Z.eqb symbol (x_books x) with
  | None => x
  | Some (b, pending) =>
      let '(b', new) := cancel b ident in
      mk_exchange (x_traded x) (f_assign Z.eqb symbol (b', pending ++ new) (x_books x)) (x_positions x) (x_subscriptions x)
  end.
(** Lines 440-550: the callbacks. *)
Definition handle (e : event) (x : exchange) : outcome (exchange * list message) :=
  match e with
  | Logon a supply => Ret (logon a supply x, [])
  | Logout a => Ret (logout a x, [])
  | Request a type depth instruments =>
      match request_all a type depth instruments (x_subscriptions x) with
      | Ret subs => Ret (mk_exchange (x_traded x) (x_books x) (x_positions x) subs, [])
      | Throw => Throw
      | UB => UB
      end
  | NewOrder a o => insert_order a o x
  | CancelOrder symbol ident => Ret (cancel_order symbol ident x, [])
  end.
End Events.

(** A history: events with the time at which they are handled; it ends early when one throws. *)
Fixpoint operate (delay : identity -> Z) (h : list (Z * event)) (x : exchange) : outcome (exchange * list message) :=
  match h with
  | [] => Ret (x, [])
  | (now, e) :: h' =>
      match handle delay now e x with
      | Ret (x', ms) => match operate delay h' x' with Ret (x'', ms') => Ret (x'', ms ++ ms') | Throw => Throw | UB => UB end
      | Throw => Throw
      | UB => UB
      end
  end.
