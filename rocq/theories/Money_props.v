(** Property theorems C43-C49. *)
From Verif Require Import Base Text Identity Money Money_spec Money_proofs.
From Coq Require Import ZifyBool.

Definition usd := mk_currency 85 83 68 100.
Definition gbp := mk_currency 71 66 80 100.

(** C43 *)
Theorem C43_prices_never_silently_compared : forall p q,
  (valuation p <> valuation q -> price_lt p q = Throw /\ price_gt p q = Throw /\ price_le p q = Throw /\ price_ge p q = Throw) /\
  (valuation p = valuation q ->
     exists lt le gt ge, price_lt p q = Ret lt /\ price_le p q = Ret le /\ price_gt p q = Ret gt /\ price_ge p q = Ret ge /\
       (lt = true <-> value p < value q) /\ (le = true <-> value p <= value q) /\
       (gt = true <-> value p > value q) /\ (ge = true <-> value p >= value q)) /\
  (price_eqb p q = true <-> value p = value q /\ valuation p = valuation q) /\
  price_neb p q = negb (price_eqb p q).
Proof. exact price_order. Qed.
Print Assumptions C43_prices_never_silently_compared.
Example C43_case : price_lt (mk_price 5 usd) (mk_price 6 gbp) = Throw /\ price_lt (mk_price (-5) usd) (mk_price 6 usd) = Ret true
  /\ price_ge (mk_price 5 usd) (mk_price 6 usd) = Ret false /\ price_eqb (mk_price 5 usd) (mk_price 5 gbp) = false.
Proof. repeat split. Qed.

(** C44 *)
Theorem C44_quotes_ordered_by_price : forall x y,
  wf_quote x -> wf_quote y -> lot x = lot y -> scalable x -> scalable y -> valuation (q_price x) = valuation (q_price y) ->
  exists eq ne lt le gt ge,
    quote_eq x y = Ret eq /\ quote_ne x y = Ret ne /\ quote_lt x y = Ret lt /\ quote_le x y = Ret le /\
    quote_gt x y = Ret gt /\ quote_ge x y = Ret ge /\
    let a := value (q_price x) in let b := value (q_price y) in
    (eq = true <-> a = b) /\ (ne = true <-> a <> b) /\ (lt = true <-> a < b) /\ (le = true <-> a <= b) /\
    (gt = true <-> a > b) /\ (ge = true <-> a >= b).
Proof. exact quote_order. Qed.
Print Assumptions C44_quotes_ordered_by_price.
Theorem C44_lots_checked : forall x y, lot x <> lot y ->
  quote_eq x y = Throw /\ quote_ne x y = Throw /\ quote_lt x y = Throw /\ quote_le x y = Throw /\ quote_gt x y = Throw.
Proof. exact quote_lots_checked. Qed.
Print Assumptions C44_lots_checked.
(** Quotes for nothing cannot be made. *)
Theorem C44_lot_is_positive : forall p l, u64 l -> (new_quote p l = Throw <-> l = 0) /\ (l <> 0 -> new_quote p l = Ret (mk_quote l p)).
Proof. intros p l _. unfold new_quote. destruct (Z.eqb_spec l 0) as [->|N]; split; [split; reflexivity|congruence|split; [discriminate|contradiction]|reflexivity]. Qed.
Print Assumptions C44_lot_is_positive.
(** [>=] compares quotes with different lots without an exception. *)
Theorem C44_greater_equal_refuted : exists x y, wf_quote x /\ wf_quote y /\ scalable x /\ scalable y /\
  valuation (q_price x) = valuation (q_price y) /\ lot x <> lot y /\ quote_ge x y = Ret true /\ value (q_price x) < value (q_price y).
Proof.
  exists (mk_quote 100 (mk_price 5 usd)), (mk_quote 1 (mk_price 50 usd)).
  vm_compute. repeat split; congruence.
Qed.
Print Assumptions C44_greater_equal_refuted.
Example C44_case : let x := mk_quote 100 (mk_price (-7) usd) in let y := mk_quote 100 (mk_price 12 usd) in
  wf_quote x /\ wf_quote y /\ scalable x /\ scalable y /\ quote_lt x y = Ret true /\ quote_ge x y = Ret false
  /\ quote_lt x (mk_quote 10 (mk_price 12 usd)) = Throw.
Proof. vm_compute. repeat split; congruence. Qed.

(** C45 *)
Theorem C45_rate_truncates : forall n d p, i64 (value p) -> 0 < n -> 0 < d -> 0 <= value p -> value p * n < W64 ->
  i64 (value p * n / d) ->
  value (rate_times_price n d p) = Z.quot (value p * n) d /\ valuation (rate_times_price n d p) = valuation p.
Proof. exact rate_positive. Qed.
Print Assumptions C45_rate_truncates.
Theorem C45_integral_rate : forall n p, i64 (value p * n) -> value (rate_times_price n 1 p) = value p * n.
Proof. exact rate_integral. Qed.
Print Assumptions C45_integral_rate.
Theorem C45_negative_prices_always_wrong_refuted : forall n d p,
  0 < n -> 2 <= d < W64 -> - W64 <= value p * n <= - d ->
  0 <= value (rate_times_price n d p) /\ Z.quot (value p * n) d < 0.
Proof. exact rate_negative. Qed.
Print Assumptions C45_negative_prices_always_wrong_refuted.
Theorem C45_large_product_refuted : exists n d p, i64 (value p) /\ 0 < n < W64 /\ 0 < d < W64 /\ Z.gcd n d = 1 /\ 0 <= value p /\
  i64 (Z.quot (value p * n) d) /\ value (rate_times_price n d p) <> Z.quot (value p * n) d.
Proof.
  exists (2 ^ 40 + 1), (2 ^ 40), (mk_price (2 ^ 30) usd). vm_compute. repeat split; congruence.
Qed.
Print Assumptions C45_large_product_refuted.
Example C45_case : value (rate_times_price 3 2 (mk_price 105 usd)) = 157 /\ i64 105 /\ 105 * 3 < W64 /\ i64 (105 * 3 / 2)
  /\ value (rate_times_price 3 1 (mk_price (-105) usd)) = -315
  /\ value (rate_times_price 1 2 (mk_price (-100) usd)) = 9223372036854775758 /\ - W64 <= -100 * 1 <= -2.
Proof. vm_compute. repeat split; congruence. Qed.

(** C46 *)
Theorem C46_currency_strict_order : forall x y z,
  ccy_ltb x x = false /\ (ccy_ltb x y = true -> ccy_ltb y z = true -> ccy_ltb x z = true) /\
  (ccy_ltb x y = false -> ccy_ltb y x = false -> c0 x = c0 y /\ c1 x = c1 y /\ c2 x = c2 y).
Proof. exact ccy_lt_order. Qed.
Print Assumptions C46_currency_strict_order.
Theorem C46_same_denominator_agrees : forall x y,
  denominator x = denominator y -> ccy_ltb x y = false -> ccy_ltb y x = false -> ccy_eqb x y = true.
Proof. exact ccy_lt_eq. Qed.
Print Assumptions C46_same_denominator_agrees.
Theorem C46_equality : forall x y, (ccy_eqb x y = true <-> x = y) /\ ccy_neb x y = negb (ccy_eqb x y).
Proof. exact (fun x y => conj (ccy_eqb_eq x y) (ccy_neb_eqb x y)). Qed.
Print Assumptions C46_equality.
Theorem C46_hash_separates_codes : forall a b c d a' b' c' d' x y,
  new_currency a b c d = Ret x -> new_currency a' b' c' d' = Ret y ->
  (ccy_hash x = ccy_hash y <-> c0 x = c0 y /\ c1 x = c1 y /\ c2 x = c2 y).
Proof. exact ccy_hash_injective. Qed.
Print Assumptions C46_hash_separates_codes.
(** Two currencies with one code and different denominators are unequal but unordered. *)
Theorem C46_denominators_refuted : forall a b c d d' x y, d <> d' -> new_currency a b c d = Ret x -> new_currency a b c d' = Ret y ->
  ccy_ltb x y = false /\ ccy_ltb y x = false /\ ccy_eqb x y = false.
Proof. exact ccy_collide. Qed.
Print Assumptions C46_denominators_refuted.
Example C46_case : new_currency 85 83 68 100 = Ret usd /\ new_currency 85 83 68 1 = Ret (mk_currency 85 83 68 1)
  /\ ccy_ltb gbp usd = true /\ ccy_ltb usd gbp = false /\ new_currency 85 83 100 100 = Throw /\ new_currency 85 83 68 0 = Throw.
Proof. repeat split. Qed.

(** C47 *)
Theorem C47_ticker_strict_total_order : strict_total tk_ltb.
Proof. exact tk_total. Qed.
Print Assumptions C47_ticker_strict_total_order.
Theorem C47_ticker_operators_agree : forall x y, tk_neb x y = negb (tk_eqb x y) /\ tk_gtb x y = tk_ltb y x /\
  tk_leb x y = negb (tk_gtb x y) /\ tk_geb x y = negb (tk_ltb x y) /\
  (tk_eqb x y = true <-> x = y) /\ forall f, tk_eqb x y = true -> tk_hash f x = tk_hash f y.
Proof. exact tk_ops. Qed.
Print Assumptions C47_ticker_operators_agree.
Example C47_case : tk_ltb (mk_ticker [1; 2] [5]) (mk_ticker [1; 2] [6]) = true /\ tk_ltb (mk_ticker [1; 2] [5]) (mk_ticker [1; 3] [1]) = true
  /\ tk_ltb (mk_ticker [1; 3] [5]) (mk_ticker [1; 2] [9]) = false /\ tk_eqb (mk_ticker [1] []) (mk_ticker [1] []) = true.
Proof. repeat split. Qed.

(** C48 *)
Theorem C48_library_codes : forall offset, 0 <= offset < 2 ^ 63 ->
  exists code, library_message_code offset = Some code /\ 2 ^ 63 <= code < W64 /\ library_message_offset code = Some offset /\
  (forall user, 0 <= user < 2 ^ 63 -> user <> code /\ library_message_offset user = None).
Proof. exact message_codes. Qed.
Print Assumptions C48_library_codes.
Theorem C48_every_high_code_is_a_library_code : forall code, 2 ^ 63 <= code < W64 ->
  exists offset, 0 <= offset < 2 ^ 63 /\ library_message_code offset = Some code.
Proof. exact message_codes_onto. Qed.
Print Assumptions C48_every_high_code_is_a_library_code.
(** The compile-time guard accepts one offset too many: 2^63 yields the code of offset 0. *)
Theorem C48_boundary_offset_refuted : exists offset, u64 offset /\ offset <> 0 /\ library_message_code offset <> None /\
  library_message_code offset = library_message_code 0 /\
  (forall code, library_message_code offset = Some code -> library_message_offset code <> Some offset).
Proof.
  exists (2 ^ 63). split; [vm_compute; split; congruence|]. split; [discriminate|]. split; [discriminate|]. split; [reflexivity|].
  intros code [= <-]. vm_compute. discriminate.
Qed.
Print Assumptions C48_boundary_offset_refuted.
Example C48_case : library_message_code 5 = Some 9223372036854775813 /\ library_message_offset 9223372036854775813 = Some 5
  /\ library_message_offset 5 = None /\ library_message_code (2 ^ 63 + 1) = None.
Proof. repeat split. Qed.

(** C49 *)
Theorem C49_currency_restored : forall c rest, load_currency (save_currency c ++ rest) = Ret (c, rest).
Proof. exact currency_archive. Qed.
Print Assumptions C49_currency_restored.
Theorem C49_rational_restored_in_range : forall n d rest, - 2 ^ 31 <= n < 2 ^ 31 -> 0 < d < 2 ^ 31 -> Z.gcd n d = 1 ->
  load_rational (save_rational (n, d) ++ rest) = Ret ((n, d), rest).
Proof. exact rational_archive. Qed.
Print Assumptions C49_rational_restored_in_range.
Theorem C49_rational_refuted : exists n d, i64 n /\ i64 d /\ 0 < d /\ Z.gcd n d = 1 /\
  exists n' d', load_rational (save_rational (n, d)) = Ret ((n', d'), []) /\ n' * d <> n * d'.
Proof. exists (2 ^ 32 + 1), 1. vm_compute. repeat split; try congruence. exists 1, 1. split; [reflexivity|congruence]. Qed.
Print Assumptions C49_rational_refuted.
(** Loading a quote restores the lot and keeps the price the target had; the archived price stays
    unread. *)
Theorem C49_quote_refuted : forall q target rest,
  load_quote target (save_quote q ++ rest) = Ret (mk_quote (lot q) (q_price target), save_price (q_price q) ++ rest).
Proof. exact quote_archive_keeps_target. Qed.
Print Assumptions C49_quote_refuted.
(** Likewise a price keeps the value the target had. *)
Theorem C49_price_refuted : forall p target rest, load_price target (save_price p ++ rest) = Ret (target, rest).
Proof. exact (fun p target rest => eq_refl). Qed.
Print Assumptions C49_price_refuted.
Example C49_case : load_currency (save_currency usd) = Ret (usd, []) /\ load_rational (save_rational (-22, 7)) = Ret ((-22, 7), [])
  /\ save_price (mk_price (-125) usd) = [IText [85; 83; 68; 32; 45; 49; 50; 53; 47; 49; 48; 48]].
Proof. repeat split. Qed.
