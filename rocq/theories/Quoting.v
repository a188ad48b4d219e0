(** Model of the market making rule of Avellaneda and Stoikov -
    /repo/esl/economics/markets/order_book/avellaneda_stoikov.hpp:57-82. *)
From Coq Require Import SpecFloat.
From Verif Require Import Base Money StaticTicks Prices.

(** [std::floor] and [std::ceil] followed by the conversion to [std::int64_t]: undefined out of range, for
    infinity and NaN. The results of [std::floor] and [std::ceil] are doubles without rounding. *)
Definition double_floor (x : spec_float) : Z :=
  match x with
  | S754_finite s m e =>
      let v := if s then Z.neg m else Z.pos m in
      if 0 <=? e then v * 2 ^ e else v / 2 ^ (- e)
  | _ => 0
  end.
Definition opposite (x : spec_float) : spec_float := SFopp x.
Definition to_integer (f : spec_float -> Z) (x : spec_float) : outcome Z :=
  match x with
  | S754_zero _ => Ret 0
  | S754_finite _ _ _ => if in_i64 (f x) then Ret (f x) else UB
  | _ => UB
  end.
Definition floor_i64 : spec_float -> outcome Z := to_integer double_floor.
Definition ceil_i64 : spec_float -> outcome Z := to_integer (fun x => - double_floor (opposite x)).

Section Rule.
(** [std::log], of the standard C++ library; whether assertions are compiled in. *)
Context (log : spec_float -> spec_float) (assertions : bool).
Notation "x + y" := (add double x y). Notation "x - y" := (sub double x y).
Notation "x * y" := (mul double x y). Notation "x / y" := (div double x y).
Definition one := of_Z double 1.
Definition two := of_Z double 2.

(** avellaneda_stoikov.hpp:68. [std::uint64_t] is converted to the nearest double. *)
Definition reservation (mid : price) (n_long n_short : Z) (theta sigma gamma : spec_float) : spec_float :=
  price_to_double mid - (of_Z double n_long - of_Z double n_short) * gamma * sigma * sigma * (one - theta).
(** avellaneda_stoikov.hpp:69. *)
Definition spread (theta sigma gamma k : spec_float) : spec_float :=
  gamma * (sigma * sigma) * (one - theta) + two / gamma * log (one + gamma / k).
(** avellaneda_stoikov.hpp:70-71: what is rounded to the bid and the ask, in units of the price. *)
Definition low (mid : price) (r s : spec_float) : spec_float := (r - s / two) * of_Z double (denominator (valuation mid)).
Definition high (mid : price) (r s : spec_float) : spec_float := (r + s / two) * of_Z double (denominator (valuation mid)).
(** avellaneda_stoikov.hpp:75-78: equal bid and ask are moved apart; signed overflow is undefined. *)
Definition apart (b a : Z) : outcome (Z * Z) :=
  if (b =? a)%Z then if in_i64 (a + 1)%Z && in_i64 (b - 1)%Z then Ret ((b - 1)%Z, (a + 1)%Z) else UB else Ret (b, a).
(** avellaneda_stoikov.hpp:70-81. *)
Definition rounded (mid : price) (r s : spec_float) : result (price * price) :=
  match floor_i64 (low mid r s), ceil_i64 (high mid r s) with
  | Ret b, Ret a =>
      match apart b a with
      | Ret (b, a) => if assertions && negb (b <? a)%Z then Abort
                      else Value (mk_price b (valuation mid), mk_price a (valuation mid))
      | _ => Undefined
      end
  | _, _ => Undefined
  end.
(** avellaneda_stoikov.hpp:57-82, with the assertions of 66-67. *)
Definition avellaneda_stoikov (mid : price) (n_long n_short : Z) (theta sigma gamma k : spec_float) : result (price * price) :=
  if assertions && negb (SFleb (of_Z double 0) theta && SFleb theta one) then Abort
  else if assertions && negb (SFltb (of_Z double 0) sigma) then Abort
  else rounded mid (reservation mid n_long n_short theta sigma gamma) (spread theta sigma gamma k).
End Rule.
