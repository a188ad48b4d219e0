(** Model of rates - /repo/esl/economics/rate.hpp, /repo/esl/economics/exchange_rate.hpp and /repo/esl/economics/interest_rate.hpp.
    A rate is a [boost::rational]: a numerator and a positive denominator without common factors. *)
From Coq Require Import SpecFloat.
From Verif Require Import Base Identity Money StaticTicks Prices.

Section Rates.
(** Whether assertions are compiled in. *)
Context (assertions : bool).
(** rate.hpp:50-54 with the constructor of [boost::rational], which throws for a zero denominator, reduces and makes the
    denominator positive; the least integer cannot be negated.  Used for [int64_t] and [uint64_t]. *)
Definition new_rate (n d : Z) : result (Z * Z) :=
  if assertions && negb (0 <? d) then Abort
  else if d =? 0 then Exception
  else if n =? 0 then Value (0, 1)
  else
    let g := Z.gcd n d in
    let '(n, d) := (n / g, d / g) in
    if 0 <? d then Value (n, d)
    else if d =? - 2 ^ 63 then Exception
    else if n =? - 2 ^ 63 then Undefined else Value (- n, - d).
(** rate.hpp:69-75: from a double, with a precision ([uint64_t], made signed for the denominator). *)
Definition rate_of_double (x : spec_float) (precision : Z) : result (Z * Z) :=
  match to_i64 (mul double x (of_Z double precision)) with
  | Ret n => new_rate n (s64 precision)
  | Throw => Exception
  | UB => Undefined
  end.
(** interest_rate.hpp:89-92 [from_consumer_prices]: the rate and its duration. *)
Definition from_consumer_prices (begin end_ : price) (duration : Z) : result (Z * Z * Z) :=
  match subtract_prices assertions end_ begin with
  | Value p => match new_rate (value p) (value begin) with
               | Value r => Value (r, duration)
               | Abort => Abort | Exception => Exception | Undefined => Undefined
               end
  | Abort => Abort | Exception => Exception | Undefined => Undefined
  end.
(** exchange_rate.hpp:42-49, for unsigned numbers. *)
Definition new_exchange_rate (quote base : Z) : result (Z * Z) :=
  match new_rate quote base with
  | Value r => if assertions && negb (0 <? quote) then Abort else Value r
  | x => x
  end.
(** exchange_rate.hpp:61-65: copies. *)
Definition copy_exchange_rate (r : Z * Z) : result (Z * Z) := new_exchange_rate (fst r) (snd r).
(** Conversion of a double to [uint64_t]: truncation; undefined out of range, for infinity and NaN. *)
Definition to_u64 (x : spec_float) : outcome Z :=
  match x with
  | S754_zero _ => Ret 0
  | S754_finite _ _ _ => if (0 <=? double_trunc x) && (double_trunc x <? W64) then Ret (double_trunc x) else UB
  | _ => UB
  end.
(** exchange_rate.hpp:73-77: from a double and a similar exchange rate. *)
Definition similar_exchange_rate (f : spec_float) (similar : Z * Z) : result (Z * Z) :=
  match to_u64 (mul double f (of_Z double (snd similar))) with
  | Ret n => new_exchange_rate n (snd similar)
  | Throw => Exception
  | UB => Undefined
  end.
(** [exchange_rate(f)] of a double: by the rules of the language the argument is converted to the integer [quote] of
    exchange_rate.hpp:42, the constructor of rate.hpp:69 would need one more conversion. *)
Definition exchange_rate_of_double (f : spec_float) : result (Z * Z) :=
  match to_u64 f with
  | Ret n => new_exchange_rate n 1
  | Throw => Exception
  | UB => Undefined
  end.
End Rates.
