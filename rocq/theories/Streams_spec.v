(** Specifications for printed values. *)
From Coq Require Import SpecFloat.
From Verif Require Import Base Text Identity Identity_spec Money Streams.

(** The characters 0 to 9. *)
Definition digit (c : Z) : Prop := 48 <= c <= 57.
(** The text is [n / 10 ^ d] in decimal notation with [d] digits after the point (none, and no point, for [d = 0]). *)
Definition shows (t : list Z) (n : Z) (d : nat) : Prop :=
  exists whole part, t = (if n <? 0 then [45] else []) ++ whole ++ (match d with O => [] | S _ => 46 :: part end) /\
    Forall digit whole /\ whole <> [] /\ Forall digit part /\ length part = d /\ read_dec 0 (whole ++ part) = Z.abs n.
(** The format of a stream: what later output depends on. *)
Definition format (s : stream) : Z * Z * bool := (fill s, precision s, fixed s).
(** Identities are made of 64-bit digits. *)
Definition proper (i : identity) : Prop := Forall u64 i.
(** The currency is counted in [10 ^ k]-ths. *)
Definition decimal (c : currency) (k : Z) : Prop := 0 <= k <= 15 /\ denominator c = 10 ^ k.
(** A price in such a currency of less than [2 ^ 52] of these. *)
Definition moderate (p : price) : Prop := (exists k, decimal (valuation p) k) /\ Z.abs (value p) < 2 ^ 52.
Definition moderate_quote (q : quote) : Prop := u64 (lot q) /\ moderate (q_price q).
(** What printing adds to the text of a stream: a number, or an integer with a width. *)
Definition added (s s' : stream) : list Z := skipn (length (written s)) (written s').
Definition shown (x : spec_float) (s : stream) : option (list Z) := match put_double x s with Some s' => Some (added s s') | None => None end.
Definition shown_wide (w : nat) (amount : Z) (s : stream) : list Z := added s (print_quantity amount (setw w s)).
Definition finite (x : spec_float) : Prop := match x with S754_zero _ | S754_finite _ _ _ => True | _ => False end.
(** The text of a report, or an exception. *)
Definition report_text (r : execution) : outcome (option (list Z)) :=
  match print_execution r fresh with Ret s => Ret (representation s) | Throw => Throw | UB => UB end.
