From Coq Require Import SpecFloat Reals Psatz.
From Flocq Require Import Core IEEE754.BinarySingleNaN.
From Verif Require Import Base Identity Money Money_spec Money_proofs StaticTicks Double_proofs Prices Prices_proofs Rates Rates_spec Rates_proofs.
From Coq Require Import ZifyBool.
Local Open Scope Z_scope.

(** ** C146: a rate given as a decimal number with as many digits as the precision is that number *)
Theorem C146_at_most_one_unit : forall assertions k precision, Z.abs k < 2 ^ 52 -> 1 <= precision <= 2 ^ 53 ->
  exists r, rate_of_double assertions (decimal k precision) precision = Value r /\ reduced r /\ (worth r k precision \/ worth r (k - Z.sgn k) precision).
Proof. exact rate_decimal. Qed.
Print Assumptions C146_at_most_one_unit.
Theorem C146_power_of_two : forall assertions v k, Z.abs v <= 2 ^ 53 -> 0 <= k <= 53 ->
  exists r, rate_of_double assertions (decimal v (2 ^ k)) (2 ^ k) = Value r /\ reduced r /\ worth r v (2 ^ k).
Proof. exact rate_binary. Qed.
Print Assumptions C146_power_of_two.
(** For all numbers: truncation and the rounding of one multiplication. *)
Theorem C146_error : forall assertions x r precision, stands x r -> 1 <= precision <= 2 ^ 53 -> (Rabs (r * IZR precision) <= bpow radix2 62)%R ->
  exists q, rate_of_double assertions x precision = Value q /\ 0 < snd q /\
    (Rabs (IZR (fst q) / IZR (snd q) - r) < / IZR precision + bpow radix2 (-53) * Rabs r)%R.
Proof. exact rate_error. Qed.
Print Assumptions C146_error.
(** Three basis points are taken for two, with the default precision; so are 37 other numbers of basis points up to five percent, one less. *)
Theorem C146_basis_points_refuted :
  rate_of_double true (decimal 3 10000) 10000 = Value (1, 5000) /\
  length (filter (fun k => match rate_of_double true (decimal (Z.of_nat k) 10000) 10000 with Value (n, d) => negb (n * 10000 =? Z.of_nat k * d) | _ => true end) (seq 0 501)) = 38%nat.
Proof. split; vm_compute; reflexivity. Qed.
Print Assumptions C146_basis_points_refuted.
Example C146_example : rate_of_double true (decimal 5 100) 10000 = Value (1, 20) /\ rate_of_double true (decimal (-29) 100) 100 = Value (-7, 25).
Proof. split; vm_compute; reflexivity. Qed.

(** ** C147: the inflation rate leads from the first price to the second *)
Theorem C147_leads : forall assertions begin end_ duration, valuation begin = valuation end_ -> 0 < value begin -> i64 (value end_ - value begin) ->
  exists r, from_consumer_prices assertions begin end_ duration = Value (r, duration) /\ reduced r /\ value begin * (snd r + fst r) = value end_ * snd r.
Proof.
  intros b p q t V P I. unfold from_consumer_prices, subtract_prices. rewrite (same_currency_eq b q p) by now symmetry. rewrite fits_in by exact I. cbn [value].
  destruct (new_rate_spec b (value q - value p) (value p) P) as (r & E & [W1 W2] & D). rewrite E. exists r. split; [reflexivity|]. split; [exact D|]. lia.
Qed.
Print Assumptions C147_leads.
(** Without assertions a rate comes out for prices in different currencies, and from a negative price. *)
Theorem C147_currencies_refuted : forall begin end_ duration, 0 < value begin -> i64 (value end_ - value begin) ->
  (valuation begin <> valuation end_ -> from_consumer_prices true begin end_ duration = Abort) /\
  exists r, from_consumer_prices false begin end_ duration = Value (r, duration) /\ worth r (value end_ - value begin) (value begin).
Proof.
  intros p q t P I. unfold from_consumer_prices, subtract_prices. split.
  - intros N. rewrite same_currency_ne by (intros E; apply N; now symmetry). reflexivity.
  - rewrite same_currency_off, fits_in by exact I. cbn [value]. destruct (new_rate_spec false (value q - value p) (value p) P) as (r & E & W & _). rewrite E. now exists r.
Qed.
Print Assumptions C147_currencies_refuted.
(** From a price of zero there is none: the program ends, or without assertions an exception is thrown. *)
Theorem C147_zero : forall assertions begin end_ duration, valuation begin = valuation end_ -> value begin = 0 -> i64 (value end_) ->
  from_consumer_prices assertions begin end_ duration = if assertions then Abort else Exception.
Proof.
  intros b p q t V Z I. unfold from_consumer_prices, subtract_prices. rewrite (same_currency_eq b q p) by now symmetry. rewrite Z, Z.sub_0_r, fits_in by exact I. destruct b; reflexivity.
Qed.
Print Assumptions C147_zero.
(** From a negative price: the program ends, or without assertions the rate is the right one, with a positive denominator. *)
Theorem C147_negative : forall begin end_ duration, valuation begin = valuation end_ -> - 2 ^ 63 < value begin < 0 -> - 2 ^ 63 < value end_ - value begin < 2 ^ 63 ->
  from_consumer_prices true begin end_ duration = Abort /\
  exists r, from_consumer_prices false begin end_ duration = Value (r, duration) /\ reduced r /\ value begin * (snd r + fst r) = value end_ * snd r.
Proof.
  intros p q t V P I. assert (I' : i64 (value q - value p)) by (unfold i64; lia). unfold from_consumer_prices, subtract_prices. split.
  - rewrite (same_currency_eq true q p) by now symmetry. rewrite fits_in by exact I'. cbn [value]. unfold new_rate. replace (0 <? value p) with false by lia. reflexivity.
  - rewrite (same_currency_eq false q p) by now symmetry. rewrite fits_in by exact I'. cbn [value].
    destruct (new_rate_negative (value q - value p) (value p)) as (r & E & [W1 W2] & D); [lia..|]. rewrite E. exists r. split; [reflexivity|]. split; [exact D|]. lia.
Qed.
Print Assumptions C147_negative.
Definition usd := mk_currency 85 83 68 100.
Example C147_example : from_consumer_prices true (mk_price 20000 usd) (mk_price 20500 usd) 12 = Value ((1, 40), 12) /\ from_consumer_prices true (mk_price 200 usd) (mk_price 150 usd) 1 = Value ((-1, 4), 1) /\
  from_consumer_prices false (mk_price (-200) usd) (mk_price 100 usd) 1 = Value ((-3, 2), 1).
Proof. split; [|split]; vm_compute; reflexivity. Qed.

(** ** C148: an exchange rate similar to another has its precision *)
(** With the precision that is left after reducing, decimals are kept up to one unit. *)
Theorem C148_reduced : forall k n d, 0 < k < 2 ^ 52 -> 1 <= d <= 2 ^ 53 -> 
  exists r, similar_exchange_rate false (decimal k d) (n, d) = Value r /\ reduced r /\ (worth r k d \/ worth r (k - 1) d).
Proof.
  intros k n d K D. pose proof (roundtrip k d ltac:(lia) D) as R. cbv zeta in R. set (w := Ztrunc (rnd (rnd (IZR k / IZR d) * IZR d))) in *.
  assert (S : stands (mul double (decimal k d) (of_Z double d)) (rnd (rnd (IZR k / IZR d) * IZR d))).
  { apply scaled_stands; [apply decimal_stands; lia|apply decimal_bound; lia|exact D]. }
  unfold similar_exchange_rate. cbn [snd]. rewrite (to_u64_stands _ _ S) by (fold w; unfold W64; lia). fold w.
  unfold new_exchange_rate. destruct (new_rate_spec false w d ltac:(lia)) as (r & E & W & Q). rewrite E. exists r. split; [reflexivity|]. split; [exact Q|].
  destruct R as [R|R]; rewrite R in W; [now left|right]. now replace (k - Z.sgn k) with (k - 1) in W by lia.
Qed.
Print Assumptions C148_reduced.
(** The precision that a rate was made with is gone when it was reduced: two hundredths have the precision of fiftieths. *)
Theorem C148_precision_refuted : forall assertions, exists similar, new_exchange_rate assertions 2 100 = Value similar /\ similar_exchange_rate assertions (decimal 3 100) similar = Value (1, 50).
Proof. intros b. exists (1, 50). destruct b; split; vm_compute; reflexivity. Qed.
Print Assumptions C148_precision_refuted.
(** Once at parity all precision is lost: whatever the rate was, the next is one, and those similar to it are whole numbers. *)
Theorem C148_parity_refuted : forall assertions n d, 1 <= d <= 2 ^ 53 -> similar_exchange_rate assertions (of_Z double 1) (n, d) = Value (1, 1) /\
  forall f r q, stands f r -> (1 <= r <= bpow radix2 60)%R -> similar_exchange_rate assertions f (1, 1) = Value q -> snd q = 1 /\ fst q = Zfloor r.
Proof.
  intros b n d D. split.
  - assert (S : stands (mul double (of_Z double 1) (of_Z double d)) (IZR d)).
    { rewrite <- (rnd_IZR d) by lia. replace (IZR d) with (1 * IZR d)%R by ring. apply scaled_stands; [apply of_Z_exact; lia| |exact D].
      rewrite Rabs_R1. change 1%R with (bpow radix2 0). apply bpow_le. lia. }
    unfold similar_exchange_rate. cbn [snd]. rewrite (to_u64_stands _ _ S); rewrite Ztrunc_IZR; [|unfold W64; lia].
    unfold new_exchange_rate. destruct (new_rate_spec b d d ltac:(lia)) as (r & E & W & Q). rewrite E. replace (0 <? d) with true by lia. rewrite Bool.andb_false_r. f_equal.
    apply (worth_reduced_eq r (1, 1) d d ltac:(lia) W); [split; cbn; lia|exact Q|split; [cbn; lia|reflexivity]].
  - intros f r q S [L U] H. unfold similar_exchange_rate in H. cbn [snd] in H.
    assert (U' : (r <= bpow radix2 100)%R) by (apply Rle_trans with (1 := U); apply bpow_le; lia).
    pose proof (scaled_stands f r 1 S ltac:(rewrite Rabs_pos_eq; lra) ltac:(lia)) as M. rewrite Rmult_1_r in M.
    assert (R : rnd r = r). { destruct S as (x & _ & _ & <-). apply round_generic; [apply valid_rnd_N|apply generic_format_B2R]. }
    rewrite R in M. assert (F : Ztrunc r = Zfloor r) by (apply Ztrunc_floor; lra).
    assert (B : 1 <= Zfloor r <= 2 ^ 60).
    { split; [apply Zfloor_lub; exact L|]. apply le_IZR. apply Rle_trans with (1 := Zfloor_lb r). change (2 ^ 60)%Z with (radix2 ^ 60)%Z. rewrite (IZR_Zpower radix2 60) by lia. exact U. }
    rewrite (to_u64_stands _ _ M), F in H by (rewrite F; unfold W64; lia). unfold new_exchange_rate in H.
    destruct (new_rate_spec b (Zfloor r) 1 ltac:(lia)) as (s & E & [W1 W2] & [_ Q]). rewrite E in H. replace (0 <? Zfloor r) with true in H by lia. rewrite Bool.andb_false_r in H. injection H as <-.
    assert (H : snd s = 1).
    { assert (D1 : (snd s | 1)) by (rewrite <- Q; apply Z.gcd_greatest; [exists (Zfloor r); lia|apply Z.divide_refl]). apply Z.divide_1_r_nonneg; [lia|exact D1]. }
    split; [assumption|]. rewrite H in W2. lia.
Qed.
Print Assumptions C148_parity_refuted.
Example C148_example : similar_exchange_rate true (decimal 15 10) (7, 8) = Value (3, 2) /\ similar_exchange_rate true (decimal 15 10) (1, 1) = Value (1, 1).
Proof. split; vm_compute; reflexivity. Qed.

(** ** C149: an exchange rate has the value of the number it is made from *)
Theorem C149_fractions : forall assertions quote base, 0 < quote < W64 -> 0 < base < W64 ->
  exists r, new_exchange_rate assertions quote base = Value r /\ worth r quote base /\ reduced r /\ copy_exchange_rate assertions r = Value r.
Proof.
  intros b n d N D. destruct (new_rate_spec b n d ltac:(lia)) as (r & E & [W1 W2] & Q). exists r.
  assert (P : 0 < fst r) by nia.
  unfold copy_exchange_rate, new_exchange_rate. rewrite E. replace (0 <? n) with true by lia. rewrite Bool.andb_false_r. split; [reflexivity|]. split; [now split|]. split; [exact Q|].
  destruct (new_rate_spec b (fst r) (snd r) W1) as (s & E' & W' & Q'). rewrite E'. replace (0 <? fst r) with true by lia. rewrite Bool.andb_false_r. f_equal.
  apply (worth_reduced_eq s r (fst r) (snd r) W1 W'); [split; [exact W1|ring]|exact Q'|exact Q].
Qed.
Print Assumptions C149_fractions.
(** From a number of at least one: the whole number below, against one. *)
Theorem C149_whole : forall assertions f r, stands f r -> (1 <= r)%R -> Zfloor r < W64 -> exchange_rate_of_double assertions f = Value (Zfloor r, 1).
Proof.
  intros b f r S L U. assert (T : Ztrunc r = Zfloor r) by (apply Ztrunc_floor; lra). assert (B : 1 <= Zfloor r) by (apply Zfloor_lub; exact L).
  unfold exchange_rate_of_double. rewrite (to_u64_stands _ _ S); rewrite T; [|lia]. unfold new_exchange_rate, new_rate.
  rewrite Z.gcd_1_r, !Z.div_1_r. replace (0 <? Zfloor r) with true by lia. replace (Zfloor r =? 0) with false by lia. now destruct b.
Qed.
Print Assumptions C149_whole.
(** From a number below one: the program ends, or without assertions the rate is zero. *)
Theorem C149_double_refuted : forall f r, stands f r -> (0 <= r < 1)%R -> exchange_rate_of_double true f = Abort /\ exchange_rate_of_double false f = Value (0, 1).
Proof.
  intros f r S R. assert (T : Ztrunc r = 0) by (rewrite Ztrunc_floor by lra; apply Zfloor_imp; change (0 + 1)%Z with 1%Z; lra).
  unfold exchange_rate_of_double. rewrite (to_u64_stands _ _ S); rewrite T; [|unfold W64; lia]. split; reflexivity.
Qed.
Print Assumptions C149_double_refuted.
(** Copying a rate of zero, which can be made from other rates, ends the program. *)
Theorem C149_zero_copy_refuted : copy_exchange_rate true (0, 1) = Abort /\ copy_exchange_rate false (0, 1) = Value (0, 1).
Proof. split; reflexivity. Qed.
Print Assumptions C149_zero_copy_refuted.
Example C149_example : new_exchange_rate true 150 100 = Value (3, 2) /\ exchange_rate_of_double true (decimal 3 2) = Value (1, 1) /\ stands (decimal 1 2) (rnd (1 / 2)).
Proof. split; [vm_compute; reflexivity|]. split; [vm_compute; reflexivity|]. apply decimal_stands; lia. Qed.
