(** Model of the price levels of the fixed-tick order book -
    /repo/esl/economics/markets/order_book/static_order_book.hpp:148-203, with
    /repo/esl/economics/markets/quote.hpp:131-137 and /repo/esl/economics/price.hpp:90-96, 241-244.
    The computations are in floating point; the model is generic in the arithmetic. *)
From Coq Require Import SpecFloat QArith Qround.
From Verif Require Import Base.
Local Open Scope Z_scope.

Record arith := mk_arith {
  num : Type; of_Z : Z -> num; add : num -> num -> num; sub : num -> num -> num;
  mul : num -> num -> num; div : num -> num -> num;
  (** [std::round], and the conversion to an integer, which truncates *)
  round_Z : num -> Z; trunc_Z : num -> Z }.

(** Exact arithmetic. *)
Definition exact : arith := mk_arith Q inject_Z Qplus Qminus Qmult Qdiv
  (fun q => if Qle_bool 0 q then Qfloor (q + (1 # 2)) else - Qfloor (- q + (1 # 2)))
  (fun q => if Qle_bool 0 q then Qfloor q else Qceiling q).
(** IEEE double precision, rounding to nearest even. *)
Definition double_round (x : spec_float) : Z :=
  match x with
  | S754_finite s m e =>
      let n := if 0 <=? e then Z.pos m * 2 ^ e else (Z.pos m + 2 ^ (- e - 1)) / 2 ^ (- e) in
      if s then - n else n
  | _ => 0
  end.
Definition double_trunc (x : spec_float) : Z :=
  match x with
  | S754_finite s m e =>
      let n := if 0 <=? e then Z.pos m * 2 ^ e else Z.pos m / 2 ^ (- e) in
      if s then - n else n
  | _ => 0
  end.
Definition double : arith := mk_arith spec_float (fun z => binary_normalize 53 1024 z 0 false)
  (SFadd 53 1024) (SFsub 53 1024) (SFmul 53 1024) (SFdiv 53 1024) double_round double_trunc.

Section Levels.
Context (A : arith).
(** The book: prices are integers in units of one [denominator]-th of the currency (cents for
    100), quotes are for [lot] units; the lowest and the highest valid price. *)
Context (denominator lot lowest highest : Z).
(** quote.hpp:131-137: [double(quote)]. *)
Definition real (v : Z) : num A := div A (div A (of_Z A v) (of_Z A denominator)) (of_Z A lot).
(** static_order_book.hpp:148-153 [span]; the number of ticks is the lot. *)
Definition levels : Z :=
  trunc_Z A (add A (mul A (mul A (sub A (real highest) (real lowest)) (of_Z A lot)) (of_Z A lot)) (of_Z A 1)).
(** static_order_book.hpp:169-187 [default_encode], of a valid limit. *)
Definition encode (v : Z) : Z :=
  round_Z A (mul A (div A (sub A (real v) (real lowest)) (sub A (real highest) (real lowest))) (of_Z A levels)).
(** static_order_book.hpp:194-203 [default_decode]; quote.hpp:109-115 and price.hpp:90-96 convert
    back by truncation. *)
Definition decode (l : Z) : Z :=
  let reverse := of_Z A (round_Z A (mul A (mul A (mul A (of_Z A l) (sub A (real highest) (real lowest))) (of_Z A lot)) (of_Z A lot))) in
  let intercept := mul A (mul A (real lowest) (of_Z A lot)) (of_Z A lot) in
  trunc_Z A (mul A (div A (add A (div A reverse (of_Z A (levels - 1))) intercept) (of_Z A lot)) (of_Z A denominator)).
(** static_order_book.hpp:469-482: the level an order is sent to, or an exception. *)
Definition level_of (v : Z) : outcome Z :=
  let i := encode v in if (i <? 0) || (levels <=? i) then Throw else Ret i.
End Levels.
