(** Model of valuation - /repo/esl/economics/accounting/standard.hpp:55-140, standard.cpp:29-34 and
    /repo/esl/economics/accounting/balance_sheet.hpp:33-58.  Logs are left out.  Quantities
    (quantity.hpp) are 64-bit unsigned amounts, see the model of prices and quotes in Money.v. *)
From Verif Require Import Base Identity IdMap Money.

(** [std::map<iso_4217, exchange_rate>], which looks at the order of currencies only; a rate is a
    numerator and a denominator (rate.hpp). *)
Definition rates : Type := list (currency * (Z * Z)).
Definition equivalent (x y : currency) : bool := negb (ccy_ltb x y) && negb (ccy_ltb y x).
Fixpoint rate_of (c : currency) (m : rates) : option (Z * Z) :=
  match m with
  | [] => None
  | (k, r) :: m' => if equivalent k c then Some r else rate_of c m'
  end.
(** standard.hpp:57-69 *)
Record standard := mk_standard { reporting : currency; foreign : rates; market : idmap quote }.
(** standard.cpp:29-34: the reporting currency converts to itself. *)
Definition new_standard (c : currency) : standard := mk_standard c [(c, (1, 1))] [].

(** standard.hpp:71-87 [value(money, quantity)], in line 91 used for cash too; line 73 converts to signed. *)
Definition value_money (s : standard) (c : currency) (q : Z) : outcome price :=
  let p := mk_price (s64 q) c in
  if ccy_eqb c (reporting s) then Ret p
  else match rate_of c (foreign s) with
       | None => Throw
       | Some (n, d) => Ret (rate_times_price n d p)
       end.
(** standard.hpp:94-106 [value(stock, quantity)]: the price is converted to unsigned for the multiplication. *)
Definition value_stock (s : standard) (stock : identity) (q : Z) : outcome price :=
  match im_find stock (market s) with
  | None => Throw
  | Some x => Ret (mk_price (s64 (w64 (value (q_price x) * q) / lot x)) (valuation (q_price x)))
  end.
(** standard.hpp:108-112 [value(loan, quantity)]: the negated amount is signed, negating the least integer is undefined; the
    denominator is unsigned and so is the product. *)
Definition value_loan (s : standard) (q : Z) : outcome price :=
  if s64 q =? - 2 ^ 63 then UB else Ret (mk_price (s64 (- s64 q * denominator (reporting s))) (reporting s)).
(** standard.hpp:114-128 [value(securities_lending_contract, quantity)], for a contract on [size] units of the [security]. *)
Definition value_lending (s : standard) (security : identity) (size q : Z) : outcome price :=
  match im_find security (market s) with
  | None => Throw
  | Some x =>
      let v := s64 (w64 (value (q_price x) * size * q) / lot x) in
      if in_i64 (0 - v) then Ret (mk_price (0 - v) (reporting s)) else UB
  end.
(** balance_sheet.hpp:38-53: [assets] of an owner of [inventory]; the loop is commented out. *)
Definition assets (s : standard) (inventory : list (identity * Z)) : price := mk_price 0 (reporting s).
