(** C40: price levels of the fixed-tick book.  [denominator] is the number of units (cents) of the
    currency, prices are in those units, [multiple * denominator] is the lot. *)
From Coq Require Import QArith Qround ZifyBool.
From Verif Require Import Base StaticTicks StaticTicks_proofs Ticks_proofs.
Local Open Scope Z_scope.


(** The highest valid price has no level: an order at it always throws. *)
Theorem C40_highest_price_refuted : forall denominator multiple lowest highest,
  0 < denominator -> 1 <= multiple -> lowest < highest ->
  level_of exact denominator (multiple * denominator) lowest highest highest = Throw.
Proof.
  intros d m lo hi Hd Hm Hr. unfold level_of. cbv zeta. rewrite encode_spec, levels_spec by lia.
  assert (R : (2 * (hi - lo) + (hi - lo)) / (2 * (hi - lo)) = 1) by (symmetry; apply (Z.div_unique_pos _ _ _ (hi - lo)); lia).
  rewrite R.
  replace (m * (hi - lo) + 1 <=? m * (hi - lo) + 1) with true by lia. rewrite orb_true_r. reflexivity.
Qed.
Print Assumptions C40_highest_price_refuted.

(** In exact arithmetic, with at least two levels for a unit, every lower valid price has a level;
    different prices have different levels, in order; decoding gives the price back. *)
Theorem C40_below_highest : forall denominator multiple lowest highest v,
  0 < denominator -> 2 <= multiple -> 0 <= lowest -> lowest <= v < highest ->
  let level := level_of exact denominator (multiple * denominator) lowest highest in
  (exists i, level v = Ret i /\ 0 <= i < levels exact denominator (multiple * denominator) lowest highest /\
             decode exact denominator (multiple * denominator) lowest highest i = v) /\
  (forall w i j, lowest <= w < highest -> level v = Ret i -> level w = Ret j -> (v < w <-> i < j)).
Proof.
  intros d m lo hi v Hd Hm H0 Hv.
  assert (K : forall u, lo <= u < hi ->
    let r := (2 * (u - lo) + (hi - lo)) / (2 * (hi - lo)) in
    0 <= r <= 1 /\ level_of exact d (m * d) lo hi u = Ret (m * (u - lo) + r) /\ 0 <= m * (u - lo) + r < m * (hi - lo) + 1).
  { intros u Hu. cbv zeta.
    assert (R : 0 <= (2 * (u - lo) + (hi - lo)) / (2 * (hi - lo)) <= 1).
    { split; [apply Z.div_pos; lia|]. apply Z.lt_succ_r. apply Z.div_lt_upper_bound; lia. }
    assert (B : 0 <= m * (u - lo) + (2 * (u - lo) + (hi - lo)) / (2 * (hi - lo)) < m * (hi - lo) + 1).
    { assert (0 <= m * (u - lo)) by (apply Z.mul_nonneg_nonneg; lia).
      assert (m * (u - lo) + m <= m * (hi - lo)) by (replace (m * (u - lo) + m) with (m * (u - lo + 1)) by ring; apply Z.mul_le_mono_nonneg_l; lia). lia. }
    split; [exact R|]. split; [|exact B].
    unfold level_of. cbv zeta. rewrite encode_spec, levels_spec by lia.
    remember ((2 * (u - lo) + (hi - lo)) / (2 * (hi - lo))) as r.
    replace ((m * (u - lo) + r <? 0) || (m * (hi - lo) + 1 <=? m * (u - lo) + r)) with false by lia. reflexivity. }
  cbv zeta. split.
  - destruct (K v Hv) as (R & E & B). cbv zeta in *. eexists. split; [exact E|]. rewrite levels_spec by lia. split; [exact B|].
    rewrite decode_spec by lia. remember ((2 * (v - lo) + (hi - lo)) / (2 * (hi - lo))) as r.
    replace (m * (v - lo) + r) with (r + (v - lo) * m) by ring. rewrite Z.div_add by lia. rewrite Z.div_small by lia. lia.
  - intros w i j Hw Ei Ej. destruct (K v Hv) as (R & E & B). destruct (K w Hw) as (R' & E' & B'). cbv zeta in *.
    rewrite E in Ei. rewrite E' in Ej. injection Ei as <-. injection Ej as <-.
    assert (Mono : v <= w -> (2 * (v - lo) + (hi - lo)) / (2 * (hi - lo)) <= (2 * (w - lo) + (hi - lo)) / (2 * (hi - lo)))
      by (intros; apply Z.div_le_mono; lia).
    assert (Mono' : w <= v -> (2 * (w - lo) + (hi - lo)) / (2 * (hi - lo)) <= (2 * (v - lo) + (hi - lo)) / (2 * (hi - lo)))
      by (intros; apply Z.div_le_mono; lia).
    remember ((2 * (v - lo) + (hi - lo)) / (2 * (hi - lo))) as r. remember ((2 * (w - lo) + (hi - lo)) / (2 * (hi - lo))) as r'.
    clear - Hm Mono Mono' R R'. split.
    + intros L. specialize (Mono ltac:(lia)). assert (m * (v - lo) < m * (w - lo)) by (apply Z.mul_lt_mono_pos_l; lia). lia.
    + intros L. destruct (Z.lt_ge_cases v w) as [|G]; [assumption|]. exfalso. specialize (Mono' ltac:(lia)).
      assert (m * (w - lo) <= m * (v - lo)) by (apply Z.mul_le_mono_nonneg_l; lia). lia.
Qed.
Print Assumptions C40_below_highest.

(** With one level for a unit (lot = denominator), even in exact arithmetic, the quote of a limit in
    the upper half of the range is one unit too high. *)
Theorem C40_single_ticks_refuted : forall denominator lowest highest v,
  0 < denominator -> 0 <= lowest -> lowest <= v < highest ->
  exists i, level_of exact denominator (1 * denominator) lowest highest v = Ret i /\
    decode exact denominator (1 * denominator) lowest highest i = (if highest - lowest <=? 2 * (v - lowest) then v + 1 else v).
Proof.
  intros d lo hi v Hd H0 Hv. unfold level_of. cbv zeta. rewrite encode_spec, levels_spec by lia.
  assert (R : (2 * (v - lo) + (hi - lo)) / (2 * (hi - lo)) = if hi - lo <=? 2 * (v - lo) then 1 else 0).
  { destruct (Z.leb_spec (hi - lo) (2 * (v - lo))).
    - symmetry. apply (Z.div_unique_pos _ _ _ (2 * (v - lo) - (hi - lo))); lia.
    - apply Z.div_small. lia. }
  rewrite R. exists (1 * (v - lo) + (if hi - lo <=? 2 * (v - lo) then 1 else 0)).
  assert (B : 0 <= 1 * (v - lo) + (if hi - lo <=? 2 * (v - lo) then 1 else 0) < 1 * (hi - lo) + 1) by (destruct (hi - lo <=? 2 * (v - lo)); lia).
  remember (1 * (v - lo) + (if hi - lo <=? 2 * (v - lo) then 1 else 0)) as i eqn:Ei.
  replace ((i <? 0) || (1 * (hi - lo) + 1 <=? i)) with false by lia. split; [reflexivity|].
  rewrite decode_spec by lia. rewrite Z.div_1_r, Ei. destruct (hi - lo <=? 2 * (v - lo)); lia.
Qed.
Print Assumptions C40_single_ticks_refuted.

(** With a lot smaller than the denominator different prices share a level (cents from 1.00 to
    10.00 with the default lot of 1; in double precision, as the code computes, and exactly). *)
Theorem C40_small_lots_refuted : exists v w, v <> w /\ 100 <= v < 1000 /\ 100 <= w < 1000 /\
  level_of double 100 1 100 1000 v = Ret 0 /\ level_of double 100 1 100 1000 w = Ret 0 /\
  level_of exact 100 1 100 1000 v = Ret 0 /\ level_of exact 100 1 100 1000 w = Ret 0.
Proof. exists 101, 102. split; [lia|]. split; [lia|]. split; [lia|]. vm_compute. repeat split. Qed.
Print Assumptions C40_small_lots_refuted.

(** In double precision, in the book of the project's own tests (cents from 0.01 to 10.00, lots of
    10000): the quote of a limit of 0.29 is 0.28, and a limit of 10.00 has no level. *)
Theorem C40_doubles_refuted :
  level_of double 100 10000 1 1000 29 = Ret 2800 /\ decode double 100 10000 1 1000 2800 = 28 /\
  level_of double 100 10000 1 1000 1000 = Throw.
Proof. vm_compute. repeat split. Qed.
Print Assumptions C40_doubles_refuted.

(** As the code computes, in double precision: every valid price below the highest has a level, different prices have different levels, in
    their order; decoding gives the price back or the one before it. *)
Theorem C40_doubles : forall denominator multiple lowest highest v,
  1 <= denominator -> 2 <= multiple -> multiple * denominator <= 2 ^ 53 -> 0 <= lowest -> lowest <= v < highest -> multiple * highest <= 2 ^ 40 ->
  let level := level_of double denominator (multiple * denominator) lowest highest in
  exists i, level v = Ret i /\ 0 <= i < levels double denominator (multiple * denominator) lowest highest /\
    (decode double denominator (multiple * denominator) lowest highest i = v \/ decode double denominator (multiple * denominator) lowest highest i = v - 1) /\
    (forall w j, lowest <= w < highest -> level w = Ret j -> (v < w <-> i < j)).
Proof.
  intros d m lo hi v Hd Hm HT H0 Hv Hh. cbv zeta.
  assert (N : m * (hi - lo) <= levels double d (m * d) lo hi) by (destruct (levels_double d m lo hi Hd Hm HT ltac:(lia) Hh) as [-> | ->]; lia).
  assert (K : forall u, lo <= u < hi -> level_of double d (m * d) lo hi u = Ret (encode double d (m * d) lo hi u) /\ m * (u - lo) <= encode double d (m * d) lo hi u <= m * (u - lo) + 1 /\
    0 <= encode double d (m * d) lo hi u < levels double d (m * d) lo hi).
  { intros u Hu. assert (E : m * (u - lo) <= encode double d (m * d) lo hi u <= m * (u - lo) + 1).
    { assert (u = lo \/ lo < u) as [->|L] by lia; [rewrite (encode_lowest d m lo hi Hd Hm HT ltac:(lia) Hh); lia|].
      destruct (encode_double d m lo hi Hd Hm HT ltac:(lia) Hh u ltac:(lia)) as [-> |[_ ->]]; lia. }
    assert (B : 0 <= encode double d (m * d) lo hi u < levels double d (m * d) lo hi) by nia.
    split; [|split; [exact E|exact B]]. unfold level_of. cbv zeta. assert ((encode double d (m * d) lo hi u <? 0) || (levels double d (m * d) lo hi <=? encode double d (m * d) lo hi u) = false) as -> by lia. reflexivity. }
  destruct (K v Hv) as (E & B & R). exists (encode double d (m * d) lo hi v). split; [exact E|]. split; [exact R|].
  split; [exact (decode_double d m lo hi Hd Hm HT ltac:(lia) Hh v Hv)|].
  intros w j Hw Ej. destruct (K w Hw) as (E' & B' & _). rewrite E' in Ej. assert (j = encode double d (m * d) lo hi w) as -> by congruence.
  assert (M : forall x y, lo <= x -> x < y -> m * (x - lo) + m <= m * (y - lo)) by (intros x y Hx Hxy; replace (m * (x - lo) + m) with (m * (x - lo + 1)) by ring; apply Z.mul_le_mono_nonneg_l; lia).
  split; intros L; [specialize (M v w ltac:(lia) L); lia|]. destruct (Z.lt_trichotomy v w) as [|[<-|G]]; [assumption|lia|]. specialize (M w v ltac:(lia) G). lia.
Qed.
Print Assumptions C40_doubles.
(** And the highest price never has one. *)
Theorem C40_highest_price_doubles_refuted : forall denominator multiple lowest highest,
  1 <= denominator -> 2 <= multiple -> multiple * denominator <= 2 ^ 53 -> 0 <= lowest < highest -> multiple * highest <= 2 ^ 40 ->
  level_of double denominator (multiple * denominator) lowest highest highest = Throw.
Proof.
  intros d m lo hi Hd Hm HT Hl Hh. unfold level_of. cbv zeta. rewrite (encode_highest d m lo hi Hd Hm HT Hl Hh), Z.leb_refl, orb_true_r. reflexivity.
Qed.
Print Assumptions C40_highest_price_doubles_refuted.

(** The theorem's hypotheses are met by that book, and then its conclusions are the right ones. *)
Example C40_example :
  levels double 100 10000 1 1000 = 99901 /\ levels exact 100 10000 1 1000 = 99901 /\
  level_of exact 100 10000 1 1000 29 = Ret 2800 /\ decode exact 100 10000 1 1000 2800 = 29 /\
  level_of exact 100 10000 1 1000 999 = Ret 99801 /\ decode exact 100 10000 1 1000 99801 = 999 /\
  level_of double 100 10000 1 1000 999 = Ret 99801 /\ decode double 100 10000 1 1000 99801 = 999.
Proof. vm_compute. repeat split. Qed.
