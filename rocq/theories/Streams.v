(** Model of printing to a stream whose format is part of its state - /repo/esl/quantity.hpp:198-254 (comparison of
    quantities with numbers), 304-308, /repo/esl/economics/price.hpp:292-318, /repo/esl/economics/iso_4217.hpp:173-177,
    /repo/esl/simulation/identity.hpp:292-310, /repo/esl/economics/markets/quote.hpp:397-406,
    /repo/esl/economics/markets/ticker.hpp:100-105, /repo/esl/mathematics/interval.hpp:175-183,
    /repo/esl/economics/markets/centralized_exchange.hpp:159-167,
    /repo/esl/economics/markets/order_book/execution_report.hpp:120-128, 147-174 and
    /repo/esl/economics/markets/order_book/order.hpp:115-120. *)
From Coq Require Import String SpecFloat.
From Verif Require Import Base Text Identity Money StaticTicks Prices.

(** ** Comparing a quantity with a number, quantity.hpp:198-254: the amount is converted to double, rounded to
    the nearest. *)
Definition quantity_eqb (amount : Z) (x : spec_float) : bool := SFeqb (of_Z double amount) x.
Definition quantity_ltb (amount : Z) (x : spec_float) : bool := SFltb (of_Z double amount) x.
Definition quantity_gtb (amount : Z) (x : spec_float) : bool := SFltb x (of_Z double amount).
Definition quantity_leb (amount : Z) (x : spec_float) : bool := quantity_ltb amount x || quantity_eqb amount x.
Definition quantity_geb (amount : Z) (x : spec_float) : bool := quantity_gtb amount x || quantity_eqb amount x.

(** ** A stream: what has been written, the width for the next item, and the format: the fill character, the
    number of digits after the point and whether numbers are shown with a fixed number of these.  Other settings
    (base, alignment, sign, locale) are those of a new stream. *)
Record stream := mk_stream { written : list Z; width : nat; fill : Z; precision : Z; fixed : bool }.
Definition fresh : stream := mk_stream [] 0 32 6 false.
(** [stream << text] and the output of a number: filled on the left up to the width, which is then reset. *)
Definition put (t : list Z) (s : stream) : stream :=
  mk_stream (written s ++ repeat (fill s) (width s - length t) ++ t) 0 (fill s) (precision s) (fixed s).
(** [stream.write]: as it is. *)
Definition write (t : list Z) (s : stream) : stream := mk_stream (written s ++ t) (width s) (fill s) (precision s) (fixed s).
(** [std::setw], [std::setfill], [std::setprecision], [std::fixed] and [stream.flags(...)]. *)
Definition setw (w : nat) (s : stream) : stream := mk_stream (written s) w (fill s) (precision s) (fixed s).
Definition setfill (c : Z) (s : stream) : stream := mk_stream (written s) (width s) c (precision s) (fixed s).
Definition setprecision (d : Z) (s : stream) : stream := mk_stream (written s) (width s) (fill s) d (fixed s).
Definition set_fixed (f : bool) (s : stream) : stream := mk_stream (written s) (width s) (fill s) (precision s) f.

(** A finite double times [10 ^ d], rounded to the nearest integer, ties to even (the exact value of the double is
    rounded, as the C library does); without the sign. *)
Definition half_even (n q : Z) : Z :=
  let a := n / q in let r := n mod q in
  if 2 * r <? q then a else if q <? 2 * r then a + 1 else if Z.even a then a else a + 1.
Definition decimals (x : spec_float) (d : Z) : Z :=
  match x with
  | S754_finite _ m e => if 0 <=? e then Z.pos m * 2 ^ e * 10 ^ d else half_even (Z.pos m * 10 ^ d) (2 ^ (- e))
  | _ => 0
  end.
(** The last [d] digits of [n], with zeros. *)
Fixpoint last_digits (d : nat) (n : Z) : list Z :=
  match d with O => [] | S d' => last_digits d' (n / 10) ++ [48 + n mod 10] end.
(** [stream << x] for a finite number with a fixed number of digits after the point.  Numbers of 10^20 and more are
    not modelled ([dec] runs out of digits). *)
Definition fixed_text (x : spec_float) (d : Z) : list Z :=
  (match x with S754_finite true _ _ | S754_zero true => [45] | _ => [] end)
  ++ dec (decimals x d / 10 ^ d) ++ (if d =? 0 then [] else 46 :: last_digits (Z.to_nat d) (decimals x d)).
(** Infinity, NaN and the format without a fixed number of digits are not modelled. *)
Definition put_double (x : spec_float) (s : stream) : option stream :=
  if fixed s then match x with S754_zero _ | S754_finite _ _ _ => Some (put (fixed_text x (precision s)) s) | _ => None end
  else None.

(** ** Prices. *)
(** price.hpp:299 [ceil(log10(double(denominator)))]: the least number of digits, the logarithm being exact for powers
    of ten (as that of the C library is); denominators up to 10^20. *)
Fixpoint digits_from (fuel : nat) (d : Z) (denominator : Z) : Z :=
  match fuel with O => d | S f => if denominator <=? 10 ^ d then d else digits_from f (d + 1) denominator end.
Definition digits (c : currency) : Z := digits_from 20 0 (denominator c).
(** iso_4217.hpp:173-177: written, not put. *)
Definition print_currency (c : currency) (s : stream) : stream := write [c0 c; c1 c; c2 c] s.
(** price.hpp:292-305: the flags are put back; the precision is not. *)
Definition print_price (p : price) (s : stream) : option stream :=
  match put_double (price_to_double p) (setprecision (digits (valuation p)) (set_fixed true (put [40] (print_currency (valuation p) s)))) with
  | Some s' => Some (set_fixed (fixed s) (put [41] s'))
  | None => None
  end.
(** price.hpp:312-318 [representation], and likewise for quotes and reports: the text written to a new stream. *)
Definition representation (r : option stream) : option (list Z) := match r with Some s => Some (written s) | None => None end.

(** ** Identities, identity.hpp:292-310: the fill character is set, and not put back. *)
Definition print_digit (w : nat) (d : Z) (s : stream) : stream := put (dec d) (setw w (setfill 48 s)).
Definition print_identity (i : identity) (s : stream) : stream :=
  match i with
  | [] => s
  | d :: ds =>
      let w := width s in
      let s := print_digit w d (put [34] (setw 0 s)) in
      put [34] (setw 0 (fold_left (fun s x => print_digit w x (put [45] s)) ds s))
  end.

(** ** Quantities, quotes, intervals of simulation time, tickers and reports. *)
(** quantity.hpp:304-308. *)
Definition print_quantity (amount : Z) (s : stream) : stream := put (dec amount) s.
(** quote.hpp:397-406, for a quote that holds a price. *)
Definition print_quote (q : quote) (s : stream) : option stream := print_price (q_price q) (put [64] (put (dec (lot q)) s)).
(** interval.hpp:175-183, for the intervals of time, closed on the left and open on the right. *)
Definition print_interval (lower upper : Z) (s : stream) : stream :=
  put [41] (put (dec upper) (put [44] (put (dec lower) (put [91] s)))).
(** ticker.hpp:100-105. *)
Definition print_ticker (base quote : identity) (s : stream) : stream := print_identity quote (put [47] (print_identity base s)).
(** centralized_exchange.hpp:159-167, [std::endl] writes a line feed. *)
Record position := mk_position { supply : Z; bought : Z; sold : Z }.
Definition print_position (r : position) (s : stream) : stream :=
  put [10] (put (dec (sold r)) (put [45] (put (dec (bought r)) (put [43] (put (dec (supply r)) s))))).
(** execution_report.hpp:38-43: the state as a number (0 invalid, 1 cancel, 2 match, 3 placement). *)
Record execution := mk_execution { e_state : Z; e_buy : bool; e_quantity : Z; e_identifier : Z; e_limit : quote; e_owner : identity }.
Definition state_text (state : Z) : outcome (list Z) :=
  if state =? 0 then Ret (codes "invalid"%string) else if state =? 1 then Ret (codes "cancel"%string)
  else if state =? 2 then Ret (codes "match"%string) else if state =? 3 then Ret (codes "placement"%string) else Throw.
(** execution_report.hpp:147-174: [quote_] is computed and not used. *)
Definition print_execution (r : execution) (s : stream) : outcome (option stream) :=
  match state_text (e_state r) with
  | Ret t => Ret (print_quote (e_limit r) (put [32] (print_identity (e_owner r) (put [32] (put t s)))))
  | Throw => Throw | UB => UB
  end.
(** order.hpp:115-120: nothing is printed, whatever the order. *)
Definition print_order {order : Type} (o : order) (s : stream) : stream := s.
