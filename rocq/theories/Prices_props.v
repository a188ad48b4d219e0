(** Property theorems C95-C98. *)
From Coq Require Import SpecFloat Zquot.
From Verif Require Import Base Identity Money Money_spec Money_proofs StaticTicks Prices Prices_proofs.

Definition usd := mk_currency 85 83 68 100.
Definition gbp := mk_currency 71 66 80 100.
Definition jpy := mk_currency 74 80 89 1.

(** C95: in one currency and within 64 bits. *)
Theorem C95_exact : forall assertions p q, valuation p = valuation q ->
  (i64 (value p + value q) -> add_prices assertions p q = Value (mk_price (value p + value q) (valuation p))) /\
  (i64 (value p - value q) -> subtract_prices assertions p q = Value (mk_price (value p - value q) (valuation p))) /\
  (i64 (value p) -> i64 (value p + value q) ->
     exists s, add_prices assertions p q = Value s /\ subtract_prices assertions s q = Value p) /\
  (i64 (- value p) -> negate_price p = Value (mk_price (- value p) (valuation p))).
Proof.
  intros b p q E. split; [|split; [|split]].
  - intros H. unfold add_prices. rewrite same_currency_eq by exact E. now apply fits_in.
  - intros H. unfold subtract_prices. rewrite same_currency_eq by exact E. now apply fits_in.
  - intros Hp H. eexists. split.
    + unfold add_prices. rewrite same_currency_eq by exact E. now apply fits_in.
    + unfold subtract_prices. rewrite same_currency_eq by exact E. cbn [value valuation].
      replace (value p + value q - value q) with (value p) by lia. rewrite fits_in by exact Hp. destruct p; reflexivity.
  - intros H. now apply fits_in.
Qed.
Print Assumptions C95_exact.
(** Results that do not fit are undefined. *)
Theorem C95_out_of_range : forall assertions p q, valuation p = valuation q ->
  (~ i64 (value p + value q) -> add_prices assertions p q = Undefined) /\
  (~ i64 (value p - value q) -> subtract_prices assertions p q = Undefined) /\
  (~ i64 (- value p) -> negate_price p = Undefined).
Proof.
  intros b p q E. split; [|split]; intros H; unfold add_prices, subtract_prices, negate_price; rewrite ?same_currency_eq by exact E; now apply fits_out.
Qed.
Print Assumptions C95_out_of_range.
(** Prices in different currencies are rejected where assertions are compiled in ... *)
Theorem C95_mixed_aborts : forall p q, valuation p <> valuation q ->
  add_prices true p q = Abort /\ subtract_prices true p q = Abort /\ multiply_prices true p q = Abort /\ divide_prices true p q = Abort.
Proof. intros p q N. unfold add_prices, subtract_prices, multiply_prices, divide_prices. now rewrite !same_currency_ne by exact N. Qed.
Print Assumptions C95_mixed_aborts.
(** ... and added up where they are not. *)
Theorem C95_mixed_refuted : forall p q, i64 (value p + value q) ->
  add_prices false p q = Value (mk_price (value p + value q) (valuation p)).
Proof. intros p q H. unfold add_prices. rewrite same_currency_off. now apply fits_in. Qed.
Print Assumptions C95_mixed_refuted.
(** Quotes: lots have to be equal and are kept. *)
Theorem C95_quotes : forall assertions x y, 0 < lot x ->
  (lot x <> lot y -> on_quotes (add_prices assertions) x y = Exception /\ on_quotes (subtract_prices assertions) x y = Exception) /\
  (lot x = lot y -> valuation (q_price x) = valuation (q_price y) ->
    (i64 (value (q_price x) + value (q_price y)) -> on_quotes (add_prices assertions) x y =
       Value (mk_quote (lot x) (mk_price (value (q_price x) + value (q_price y)) (valuation (q_price x))))) /\
    (i64 (value (q_price x) - value (q_price y)) -> on_quotes (subtract_prices assertions) x y =
       Value (mk_quote (lot x) (mk_price (value (q_price x) - value (q_price y)) (valuation (q_price x)))))).
Proof.
  intros b x y L. unfold on_quotes, new_quote. assert (lot x =? 0 = false) as -> by (apply Z.eqb_neq; lia). split.
  - intros N. apply Z.eqb_neq in N. rewrite N. split; reflexivity.
  - intros E V. apply Z.eqb_eq in E. rewrite E. cbn [negb]. split; intros H.
    + unfold add_prices. rewrite same_currency_eq by exact V. now rewrite fits_in.
    + unfold subtract_prices. rewrite same_currency_eq by exact V. now rewrite fits_in.
Qed.
Print Assumptions C95_quotes.
(** Products and quotients of the numbers of units: the quotient is truncated and that by zero undefined. *)
Theorem C95_products : forall assertions p q, valuation p = valuation q ->
  (i64 (value p * value q) -> multiply_prices assertions p q = Value (mk_price (value p * value q) (valuation p))) /\
  (~ i64 (value p * value q) -> multiply_prices assertions p q = Undefined) /\
  (value q = 0 -> divide_prices assertions p q = Undefined) /\
  (forall k r, i64 k -> value p = k * value q + r -> Z.abs r < Z.abs (value q) -> 0 <= r * value p ->
     divide_prices assertions p q = Value (mk_price k (valuation p))).
Proof.
  intros b p q E. unfold multiply_prices, divide_prices. rewrite !same_currency_eq by exact E. split; [apply fits_in|]. split; [apply fits_out|]. split.
  - intros ->. reflexivity.
  - intros k r K V R S. destruct (Z.eqb_spec (value q) 0) as [Z0|Z0]; [lia|].
    assert (Q : Z.quot (value p) (value q) = k).
    { symmetry. apply (Zquot.Zquot_unique_full _ _ k r); [|lia]. unfold Zquot.Remainder.
      destruct (Z.lt_trichotomy (value p) 0) as [P|[P|P]]; [right|left|left]; (split; [lia|]).
      - enough (r <= 0) by lia. nia.
      - enough (r = 0) by lia. assert (k = 0) by nia. subst k. lia.
      - enough (0 <= r) by lia. nia. }
    rewrite Q. now apply fits_in.
Qed.
Print Assumptions C95_products.
Example C95_quotient : divide_prices true (mk_price (-7) usd) (mk_price 2 usd) = Value (mk_price (-3) usd)
  /\ divide_prices true (mk_price 7 usd) (mk_price 0 usd) = Undefined /\ multiply_prices true (mk_price (-7) usd) (mk_price 2 usd) = Value (mk_price (-14) usd).
Proof. repeat split. Qed.
Example C95_case : add_prices true (mk_price 150 usd) (mk_price (-275) usd) = Value (mk_price (-125) usd)
  /\ add_prices true (mk_price 5 usd) (mk_price 5 gbp) = Abort /\ add_prices false (mk_price 5 usd) (mk_price 5 gbp) = Value (mk_price 10 usd)
  /\ on_quotes (add_prices true) (mk_quote 10 (mk_price 5 usd)) (mk_quote 10 (mk_price 6 usd)) = Value (mk_quote 10 (mk_price 11 usd))
  /\ add_prices true (mk_price (2 ^ 63 - 1) usd) (mk_price 1 usd) = Undefined.
Proof. repeat split. Qed.

(** C96: at most one unit is lost, towards zero; none with a denominator that is a power of two. *)
Theorem C96_at_most_one_unit : forall v c, Z.abs v < 2 ^ 52 -> 1 <= denominator c <= 2 ^ 53 ->
  exists w, approximate (price_to_double (mk_price v c)) c = Ret (mk_price w c) /\ (w = v \/ w = v - Z.sgn v).
Proof. exact price_roundtrip. Qed.
Print Assumptions C96_at_most_one_unit.
Theorem C96_power_of_two : forall v c k, Z.abs v <= 2 ^ 53 -> 0 <= k <= 53 -> denominator c = 2 ^ k ->
  approximate (price_to_double (mk_price v c)) c = Ret (mk_price v c).
Proof. exact price_roundtrip_binary. Qed.
Print Assumptions C96_power_of_two.
Theorem C96_cents_refuted : exists v, 0 <= v < 100 /\
  approximate (price_to_double (mk_price v usd)) usd = Ret (mk_price (v - 1) usd).
Proof. exists 29. split; [lia|]. vm_compute. reflexivity. Qed.
Print Assumptions C96_cents_refuted.
(** What is too large, infinite or not a number is undefined. *)
Theorem C96_too_large : forall x c,
  ((exists s, x = S754_infinity s) \/ x = S754_nan \/ (exists z, 2 ^ 63 <= z < 2 ^ 900 /\ x = of_Z double z)) ->
  1 <= denominator c <= 2 ^ 53 -> approximate x c = UB.
Proof. exact approximate_too_large. Qed.
Print Assumptions C96_too_large.
Example C96_large : approximate (of_Z double (2 ^ 64)) usd = UB /\ approximate (of_Z double (2 ^ 56)) usd = Ret (mk_price (100 * 2 ^ 56) usd).
Proof. vm_compute. split; reflexivity. Qed.
Example C96_case : approximate (price_to_double (mk_price 1234 usd)) usd = Ret (mk_price 1234 usd)
  /\ approximate (price_to_double (mk_price (-115) usd)) usd = Ret (mk_price (-114) usd)
  /\ approximate (price_to_double (mk_price 123456789 jpy)) jpy = Ret (mk_price 123456789 jpy).
Proof. vm_compute. repeat split. Qed.

(** C97: doubles are taken as numbers of units of the price, not as amounts of the currency. *)
Theorem C97_units : forall v k c, Z.abs v <= 2 ^ 53 -> Z.abs k <= 2 ^ 53 ->
  (Z.abs (v + k) <= 2 ^ 53 -> price_plus (mk_price v c) (of_Z double k) = Ret (mk_price (v + k) c)) /\
  (Z.abs (v - k) <= 2 ^ 53 -> price_minus (mk_price v c) (of_Z double k) = Ret (mk_price (v - k) c)).
Proof. exact (fun v k c Hv Hk => conj (price_plus_units v k c Hv Hk) (price_minus_units v k c Hv Hk)). Qed.
Print Assumptions C97_units.
(** In particular an amount is only added as such in currencies without smaller units. *)
Theorem C97_amount_refuted : forall v k c, Z.abs v <= 2 ^ 53 -> Z.abs k <= 2 ^ 53 -> Z.abs (v + k) <= 2 ^ 53 -> k <> 0 -> 1 < denominator c ->
  price_plus (mk_price v c) (of_Z double k) <> Ret (mk_price (v + k * denominator c) c).
Proof.
  intros v k c Hv Hk H N D. rewrite price_plus_units by assumption. intros [= E].
  assert (k * (denominator c - 1) = 0) by lia. apply Z.mul_eq_0 in H0. lia.
Qed.
Print Assumptions C97_amount_refuted.
(** Multiples are exact; parts are truncated. *)
Theorem C97_scaling : forall v k c, Z.abs v < 2 ^ 53 -> 1 <= Z.abs k <= 2 ^ 53 ->
  (Z.abs (v * k) <= 2 ^ 53 -> price_times (mk_price v c) (of_Z double k) = Ret (mk_price (v * k) c)) /\
  price_over (mk_price v c) (of_Z double k) = Ret (mk_price (Z.quot v k) c).
Proof. intros v k c Hv Hk. split; [intros H; apply price_times_units; lia|apply price_over_units; lia]. Qed.
Print Assumptions C97_scaling.
Example C97_case : price_plus (mk_price 100 usd) (of_Z double 1) = Ret (mk_price 101 usd)
  /\ price_over (mk_price (-100) usd) (of_Z double 3) = Ret (mk_price (-33) usd)
  /\ price_times (mk_price 100 usd) (of_Z double 7) = Ret (mk_price 700 usd).
Proof. vm_compute. repeat split. Qed.

(** C98: the double is per unit, the quote made of it is per lot. *)
Theorem C98_divided_by_lot : forall q, Z.abs (value (q_price q)) < 2 ^ 50 -> 1 <= denominator (valuation (q_price q)) <= 2 ^ 53 -> 1 <= lot q < 2 ^ 32 ->
  exists w, quote_from (quote_to_double q) q = Ret (mk_quote (lot q) (mk_price w (valuation (q_price q)))) /\
    Z.abs (w * lot q - value (q_price q)) < 2 * lot q /\
    (2 <= lot q -> value (q_price q) <> 0 -> w <> value (q_price q)).
Proof. exact quote_roundtrip. Qed.
Print Assumptions C98_divided_by_lot.
Theorem C98_larger_lots_refuted : forall q, Z.abs (value (q_price q)) < 2 ^ 50 -> 1 <= denominator (valuation (q_price q)) <= 2 ^ 53 ->
  2 <= lot q < 2 ^ 32 -> value (q_price q) <> 0 -> quote_from (quote_to_double q) q <> Ret q.
Proof.
  intros q Hv Hd Hl N. destruct (quote_roundtrip q Hv Hd ltac:(lia)) as (w & E & _ & D). rewrite E. intros H. injection H as H.
  specialize (D ltac:(lia) N). apply D. rewrite <- H. reflexivity.
Qed.
Print Assumptions C98_larger_lots_refuted.
Example C98_case : let q := mk_quote 100 (mk_price 12345 usd) in
  quote_from (quote_to_double q) q = Ret (mk_quote 100 (mk_price 123 usd)) /\
  quote_from (quote_to_double (mk_quote 1 (mk_price 12345 usd))) (mk_quote 1 (mk_price 12345 usd)) = Ret (mk_quote 1 (mk_price 12345 usd)).
Proof. vm_compute. repeat split. Qed.
