(** Model of the acts of the two markets that send quotes and collect orders:
    /repo/esl/economics/markets/walras/price_setter.cpp:58-163, 279-306 and
    /repo/esl/economics/markets/impact_function/market.cpp:45-182.
    The messages [clear_market] sends to settle trades are in Walras.v; outputs and logging are left out. *)
From Coq Require Import SpecFloat.
From Verif Require Import Base Identity Walras.

(** A message in the inbox: an order, with its content, or anything else. The inbox is in the order of delivery
    times (communicator.hpp:103-109), and holds messages to be delivered later as well (environment.cpp:150). *)
Inductive letter (D : Type) : Type := Order (sender : identity) (sent : Z) (content : D) | Other (sent : Z).
Arguments Order {D}. Arguments Other {D}.
(** A quote message: to whom, delivered when, the quotes by property (in units of the currency). *)
Record quotation := mk_quotation { n_recipient : identity; n_received : Z; n_quotes : list (identity * Z) }.

Section Collect.
Context {D : Type}.
(** [orders_.emplace(sender, order)]: the first order of a sender is kept. The order of an [unordered_map] is
    not specified; entries are kept by arrival here. *)
Definition emplace_order (orders : list (identity * D)) (sender : identity) (content : D) : list (identity * D) :=
  if existsb (fun x => id_eqb (fst x) sender) orders then orders else orders ++ [(sender, content)].
(** price_setter.cpp:107-117, market.cpp:90-101: the loop over the inbox, which stops at an order sent before
    this step. The second result tells whether it did. *)
Fixpoint collect (lower : Z) (inbox : list (Z * letter D)) (orders : list (identity * D)) : list (identity * D) * bool :=
  match inbox with
  | [] => (orders, false)
  | (_, Other _) :: l => collect lower l orders
  | (_, Order sender sent content) :: l =>
      if sent <? lower then (orders, true) else collect lower l (emplace_order orders sender content)
  end.
End Collect.

(** *** The price setter. *)
Section PriceSetter.
(** The content of orders, and the solver: multipliers of the quotes, if it finds any. *)
Context {D : Type} (solver : list (identity * D) -> list (identity * Z) -> option (list (identity * spec_float))).
(** price_setter.hpp: the state, the quotes, the date of the quotes sent last, the participants. *)
Record setter := mk_setter { s_clearing : bool; s_quotes : list (identity * Z); s_date : Z; s_participants : list identity }.
(** price_setter.cpp:72-91. *)
Definition new_setter (quotes : list (identity * Z)) (participants : list identity) : setter := mk_setter false quotes 0 participants.
(** price_setter.cpp:279-304: previous quotes if there is no solution. *)
Definition clear_quotes (orders : list (identity * D)) (quotes : list (identity * Z)) : outcome (list (identity * Z)) :=
  match solver orders quotes with None => Ret quotes | Some result => apply_results result quotes end.
(** price_setter.cpp:101-163: the state after, the quotes sent, the time to wake up. *)
Definition setter_act (lower upper : Z) (inbox : list (Z * letter D)) (s : setter) : outcome (setter * list quotation * Z) :=
  let '(orders, _) := collect lower inbox [] in
  let offs := match orders with [] => 0 | _ => 1 end in
  let cleared := match orders with [] => Ret (s_quotes s) | _ => clear_quotes orders (s_quotes s) end in
  match cleared with
  | Ret quotes =>
      let date := w64 (lower + offs) in
      if (negb (s_clearing s) && (s_date s =? 0)) || (s_date s <? date)
      then Ret (mk_setter true quotes date (s_participants s), map (fun p => mk_quotation p date quotes) (s_participants s), date)
      else Ret (mk_setter true quotes (s_date s) (s_participants s), [], date)
  | Throw => Throw | UB => UB
  end.
(** Acts one after the other. *)
Fixpoint setter_acts (l : list (Z * Z * list (Z * letter D))) (s : setter) : outcome (setter * list (list quotation)) :=
  match l with
  | [] => Ret (s, [])
  | (lower, upper, inbox) :: l' =>
      match setter_act lower upper inbox s with
      | Ret (s', ms, _) => match setter_acts l' s' with Ret (s2, mss) => Ret (s2, ms :: mss) | Throw => Throw | UB => UB end
      | Throw => Throw | UB => UB
      end
  end.
End PriceSetter.

(** *** The impact market. *)
(** order.hpp:38-43: [buy] and [sell]. *)
Inductive side := Buy | Sell.
Definition side_number (s : side) : Z := match s with Buy => 0 | Sell => 1 end.
(** order.hpp:45: volume and side by property. *)
Definition volumes := list (identity * (Z * side)).
(** [volumes_.emplace(p, 0.)], then an addition to it. *)
Fixpoint bump (p : identity) (d : Z) (m : list (identity * Z)) : list (identity * Z) :=
  match m with
  | [] => [(p, d)]
  | (k, v) :: m' => if id_eqb p k then (k, v + d) :: m' else (k, v) :: bump p d m'
  end.
(** market.cpp:159-172: [i.first] is compared with the sides, and [i.second] added. The sums are exact in double
    precision up to 2^53 orders. *)
Definition volume_change (x : Z * side) : Z :=
  if fst x =? side_number Buy then side_number (snd x)
  else if fst x =? side_number Sell then - side_number (snd x) else 0.
Definition net_volumes (orders : list (identity * volumes)) : list (identity * Z) :=
  fold_left (fun m o => fold_left (fun m pv => bump (fst pv) (volume_change (snd pv)) m) (snd o) m) orders [].
Section Impact.
(** market.hpp: the state, the quotes, the participants. Quotes of properties that are not traded
    start as [quote()], the price zero. *)
Record impact_market := mk_impact { i_clearing : bool; i_quotes : list (identity * Z); i_participants : list identity }.
(** market.cpp:45-64. *)
Definition new_impact (quotes : list (identity * Z)) (participants : list identity) : impact_market := mk_impact false quotes participants.
(** market.cpp:174-178: [traded_properties[p]] inserts what is not there. *)
Definition touch (quotes : list (identity * Z)) (p : identity) : list (identity * Z) :=
  if existsb (fun x => id_eqb (fst x) p) quotes then quotes else quotes ++ [(p, 0)].
(** market.cpp:153-181 [clear_market]: the quotes after, and what the impact function was called with.
    The result is not used by the caller. *)
Definition clear_impact (orders : list (identity * volumes)) (quotes : list (identity * Z)) : list (identity * Z) * list (identity * Z) :=
  let net := net_volumes orders in (fold_left touch (map fst net) quotes, net).
(** market.cpp:71-151: the state after, the quotes sent, the calls of the impact function, the time to wake up. *)
Definition impact_act (lower upper : Z) (inbox : list (Z * letter volumes)) (s : impact_market)
  : impact_market * list quotation * list (identity * Z) * Z :=
  let '(quotes, calls, next) :=
    if i_clearing s
    then let '(orders, stale) := collect lower inbox [] in
         let next := if stale then lower else upper in
         match orders with
         | [] => (i_quotes s, [], if lower >? 1 then lower else next)
         | _ => let '(quotes, calls) := clear_impact orders (i_quotes s) in (quotes, calls, next)
         end
    else (i_quotes s, [], lower) in
  (mk_impact true quotes (i_participants s), map (fun p => mk_quotation p (w64 (lower + 1)) quotes) (i_participants s), calls, next).
Fixpoint impact_acts (l : list (Z * Z * list (Z * letter volumes))) (s : impact_market) : impact_market * list (list quotation) :=
  match l with
  | [] => (s, [])
  | (lower, upper, inbox) :: l' =>
      let '(s', ms, _, _) := impact_act lower upper inbox s in let '(s2, mss) := impact_acts l' s' in (s2, ms :: mss)
  end.
End Impact.
