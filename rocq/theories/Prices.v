(** Model of the arithmetic of prices and quotes and of their conversion to and from floating point -
    /repo/esl/economics/price.hpp:90-120, 161-267, /repo/esl/economics/markets/quote.hpp:100-137, 246-342,
    /repo/esl/economics/money.hpp:88-94 with /repo/esl/algorithms.hpp:149-153. *)
From Coq Require Import SpecFloat.
From Verif Require Import Base Identity Money StaticTicks.

(** What an operation comes to: a value, the end of the program by a failing [assert], an exception,
    or undefined behaviour. *)
Inductive result (A : Type) : Type := Value (a : A) | Abort | Exception | Undefined.
Arguments Value {A}. Arguments Abort {A}. Arguments Exception {A}. Arguments Undefined {A}.

Section Arithmetic.
(** Whether assertions are compiled in. *)
Context (assertions : bool).
(** [assert(valuation == operand.valuation)] *)
Definition same_currency {A} (p q : price) (k : result A) : result A :=
  if assertions && negb (ccy_eqb (valuation p) (valuation q)) then Abort else k.
(** Signed 64-bit arithmetic. *)
Definition fits (p : price) (x : Z) : result price := if in_i64 x then Value (mk_price x (valuation p)) else Undefined.
(** price.hpp:161-172 [+], [+=]. *)
Definition add_prices (p q : price) : result price := same_currency p q (fits p (value p + value q)).
(** price.hpp:174-177. *)
Definition negate_price (p : price) : result price := fits p (- value p).
(** price.hpp:179-190 [-], [-=]. *)
Definition subtract_prices (p q : price) : result price := same_currency p q (fits p (value p - value q)).
(** price.hpp:193-204: the product of the numbers of units. *)
Definition multiply_prices (p q : price) : result price := same_currency p q (fits p (value p * value q)).
(** price.hpp:206-217: the quotient of the numbers of units, truncated; division by zero is undefined. *)
Definition divide_prices (p q : price) : result price :=
  same_currency p q (if value q =? 0 then Undefined else fits p (Z.quot (value p) (value q))).

(** quote.hpp:246-296: [+], [-], [*], [/] of two quotes: by lot and price. *)
Definition on_quotes (f : price -> price -> result price) (x y : quote) : result quote :=
  if negb (lot x =? lot y) then Exception
  else match f (q_price x) (q_price y) with
       | Value p => match new_quote p (lot x) with Ret q => Value q | _ => Exception end
       | Abort => Abort | Exception => Exception | Undefined => Undefined
       end.
End Arithmetic.

(** Conversion of a double to [int64_t]: truncation; undefined out of range, for infinity and NaN. *)
Definition to_i64 (x : spec_float) : outcome Z :=
  match x with
  | S754_zero _ => Ret 0
  | S754_finite _ _ _ => if in_i64 (double_trunc x) then Ret (double_trunc x) else UB
  | _ => UB
  end.
Definition priced (c : currency) (x : outcome Z) : outcome price :=
  match x with Ret v => Ret (mk_price v c) | Throw => Throw | UB => UB end.
(** price.hpp:90-96 [approximate]; 116-120: the constructor from a number and a similar price; money.hpp:88-94
    with the default rounding rule (algorithms.hpp:149-153) does the same. *)
Definition approximate (x : spec_float) (c : currency) : outcome price :=
  priced c (to_i64 (mul double x (of_Z double (denominator c)))).
(** price.hpp:241-244 [operator double]. *)
Definition price_to_double (p : price) : spec_float := div double (of_Z double (value p)) (of_Z double (denominator (valuation p))).
(** price.hpp:249-267: with a double. *)
Definition price_plus (p : price) (x : spec_float) : outcome price := priced (valuation p) (to_i64 (add double (of_Z double (value p)) x)).
Definition price_minus (p : price) (x : spec_float) : outcome price := priced (valuation p) (to_i64 (sub double (of_Z double (value p)) x)).
Definition price_times (p : price) (x : spec_float) : outcome price := priced (valuation p) (to_i64 (mul double (of_Z double (value p)) x)).
Definition price_over (p : price) (x : spec_float) : outcome price := priced (valuation p) (to_i64 (div double (of_Z double (value p)) x)).
(** quote.hpp:109-116: the constructor from a number and a similar quote. *)
Definition quote_from (x : spec_float) (similar : quote) : outcome quote :=
  match approximate x (valuation (q_price similar)) with Ret p => new_quote p (lot similar) | Throw => Throw | UB => UB end.
(** quote.hpp:131-137 [operator floating_point_t_]: per unit. *)
Definition quote_to_double (q : quote) : spec_float := div double (price_to_double (q_price q)) (of_Z double (lot q)).
