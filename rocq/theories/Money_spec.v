(** Specifications for prices, quotes and rates. *)
From Verif Require Import Base Text Identity Money.

Definition wf_price (p : price) : Prop := i64 (value p) /\ u64 (denominator (valuation p)).
Definition wf_quote (q : quote) : Prop := wf_price (q_price q) /\ 0 < lot q < W32.
(** The scaled value fits in 64 bits (in particular every |value| < 2^31). *)
Definition scalable (q : quote) : Prop := i64 (value (q_price q) * lot q).

(** A strict total order given by a boolean "less" and equality. *)
Definition strict_total {A} (ltb : A -> A -> bool) : Prop :=
  (forall x, ltb x x = false) /\
  (forall x y z, ltb x y = true -> ltb y z = true -> ltb x z = true) /\
  (forall x y, ltb x y = true \/ x = y \/ ltb y x = true).
