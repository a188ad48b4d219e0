From Coq Require Import SpecFloat Reals Psatz.
From Flocq Require Import Core IEEE754.BinarySingleNaN.
From Verif Require Import Base Identity Money Money_spec Money_proofs StaticTicks Double_proofs Prices.
From Coq Require Import ZifyBool.
Local Open Scope Z_scope.

(** ** Arithmetic of prices. *)
Lemma same_currency_eq {A} b p q (k : result A) : valuation p = valuation q -> same_currency b p q k = k.
Proof.
  intros E. unfold same_currency. assert (H : ccy_eqb (valuation p) (valuation q) = true) by now apply ccy_eqb_eq.
  rewrite H. now rewrite andb_false_r.
Qed.
Lemma same_currency_off {A} p q (k : result A) : same_currency false p q k = k.
Proof. reflexivity. Qed.
Lemma same_currency_ne {A} p q (k : result A) : valuation p <> valuation q -> same_currency true p q k = Abort.
Proof.
  intros N. unfold same_currency. destruct (ccy_eqb (valuation p) (valuation q)) eqn:E; [|reflexivity].
  apply ccy_eqb_eq in E. contradiction.
Qed.
Lemma fits_in p x : i64 x -> fits p x = Value (mk_price x (valuation p)).
Proof. intros H. unfold fits. now rewrite (proj2 (in_i64_iff x) H). Qed.
Lemma fits_out p x : ~ i64 x -> fits p x = Undefined.
Proof. intros H. unfold fits. destruct (in_i64 x) eqn:E; [|reflexivity]. apply in_i64_iff in E. contradiction. Qed.

Local Open Scope R_scope.
(** ** Conversion to integers. *)
Lemma to_i64_stands x r : stands x r -> i64 (Ztrunc r) -> to_i64 x = Ret (Ztrunc r).
Proof.
  intros S H. rewrite <- (trunc_stands x r S) in *. destruct S as (b & <- & F & _).
  destruct b as [s|s| |s m e B]; try discriminate F; [reflexivity|]. cbn [B2SF] in H |- *. unfold to_i64.
  now rewrite (proj2 (in_i64_iff _) H).
Qed.

Lemma two53 : IZR (2 ^ 53) * bpow radix2 (-53) = 1.
Proof. change (2 ^ 53)%Z with (radix2 ^ 53)%Z. rewrite (IZR_Zpower radix2 53) by lia. rewrite <- bpow_plus. reflexivity. Qed.
Lemma small_bpow k a : (k <= 1000)%Z -> a <= bpow radix2 k -> a <= bpow radix2 1000.
Proof. intros H A. apply Rle_trans with (1 := A). apply bpow_le. exact H. Qed.
Lemma IZR_bound z n : (0 <= n)%Z -> (Z.abs z <= 2 ^ n)%Z -> Rabs (IZR z) <= bpow radix2 n.
Proof.
  intros Hn H. rewrite <- abs_IZR. rewrite <- (IZR_Zpower radix2 n Hn). apply IZR_le. exact H.
Qed.

(** Integers divided in double precision and truncated: the integer quotient. *)
Lemma div_pos_trunc v k : (0 <= v < 2 ^ 53)%Z -> (1 <= k)%Z -> Ztrunc (rnd (IZR v / IZR k)) = (v / k)%Z.
Proof.
  intros Hv Hk. set (q := (v / k)%Z).
  assert (Hq : (k * q <= v < k * (q + 1))%Z).
  { unfold q. pose proof (Z.div_mod v k ltac:(lia)). pose proof (Z.mod_pos_bound v k ltac:(lia)). lia. }
  assert (Q0 : (0 <= q)%Z) by (unfold q; apply Z.div_pos; lia).
  assert (Qv : (q <= v)%Z) by nia.
  assert (Kp : 0 < IZR k) by (apply IZR_lt; lia).
  assert (A1 : IZR q <= IZR v / IZR k).
  { apply Rmult_le_reg_r with (IZR k); [exact Kp|]. unfold Rdiv. rewrite Rmult_assoc, Rinv_l, Rmult_1_r by lra.
    rewrite <- mult_IZR. apply IZR_le. lia. }
  assert (A2 : IZR v / IZR k <= IZR (q + 1) - / IZR k).
  { apply Rmult_le_reg_r with (IZR k); [exact Kp|]. unfold Rdiv. rewrite Rmult_assoc, Rinv_l, Rmult_1_r by lra.
    rewrite Rmult_minus_distr_r, Rinv_l by lra. rewrite <- mult_IZR, <- minus_IZR. apply IZR_le. lia. }
  assert (R1 : IZR q <= rnd (IZR v / IZR k)).
  { rewrite <- (rnd_IZR q) by lia. apply rnd_le. exact A1. }
  assert (R2 : rnd (IZR v / IZR k) < IZR (q + 1)).
  { destruct (Z.eq_dec v 0) as [->|Nv].
    - unfold Rdiv. rewrite Rmult_0_l, rnd_0. apply IZR_lt. lia.
    - destruct (Z.le_gt_cases k v) as [L|L].
      + assert (P : 1 <= IZR v / IZR k).
        { apply Rmult_le_reg_r with (IZR k); [exact Kp|]. unfold Rdiv. rewrite Rmult_assoc, Rinv_l, Rmult_1_r, Rmult_1_l by lra. apply IZR_le. exact L. }
        pose proof (rnd_error (IZR v / IZR k)) as E.
        rewrite (Rabs_pos_eq (IZR v / IZR k)) in E by lra.
        specialize (E ltac:(apply Rle_trans with (2 := P); apply (bpow_le radix2 (-1022) 0); lia)).
        apply Rabs_le_inv in E.
        assert (D : bpow radix2 (-53) * (IZR v / IZR k) < / IZR k).
        { apply Rmult_lt_reg_r with (IZR k); [exact Kp|]. rewrite Rinv_l by lra. unfold Rdiv.
          rewrite <- Rmult_assoc, Rmult_assoc, Rinv_l, Rmult_1_r by lra.
          rewrite <- two53, Rmult_comm. apply Rmult_lt_compat_r; [apply bpow_gt_0|]. apply IZR_lt. lia. }
        lra.
      + assert (Eq : (q = 0)%Z) by (unfold q; apply Z.div_small; lia). rewrite Eq in A2 |- *.
        assert (L1 : IZR v / IZR k <= 1 - bpow radix2 (-53) \/ (2 ^ 53 < k)%Z).
        { destruct (Z.le_gt_cases k (2 ^ 53)) as [B|B]; [left|right; exact B].
          change (0 + 1)%Z with 1%Z in A2. apply Rle_trans with (1 := A2).
          assert (bpow radix2 (-53) <= / IZR k); [|lra].
          apply Rmult_le_reg_r with (IZR k); [exact Kp|]. rewrite Rinv_l by lra. rewrite <- two53, Rmult_comm.
          apply Rmult_le_compat_r; [apply bpow_ge_0|]. apply IZR_le. exact B. }
        destruct L1 as [L1|L1].
        * apply Rle_lt_trans with (1 := rnd_le _ _ L1).
          replace (1 - bpow radix2 (-53)) with (IZR (2 ^ 53 - 1) * bpow radix2 (-53)) by (rewrite minus_IZR, Rmult_minus_distr_r, two53; lra).
          rewrite rnd_exact by lia. rewrite minus_IZR, Rmult_minus_distr_r, two53. pose proof (bpow_gt_0 radix2 (-53)). change (0 + 1)%Z with 1%Z. lra.
        * assert (L2 : IZR v / IZR k <= 1 - bpow radix2 (-53)).
          { apply Rmult_le_reg_r with (IZR k); [exact Kp|]. unfold Rdiv. rewrite Rmult_assoc, Rinv_l, Rmult_1_r by lra.
            rewrite Rmult_minus_distr_r, Rmult_1_l.
            assert (IZR v <= IZR (2 ^ 53) - 1) by (rewrite <- minus_IZR; apply IZR_le; lia).
            assert (IZR (2 ^ 53) < IZR k) by (apply IZR_lt; exact L1).
            pose proof two53. pose proof (bpow_gt_0 radix2 (-53)).
            assert (IZR (2 ^ 53) * (1 - bpow radix2 (-53)) <= IZR k * (1 - bpow radix2 (-53))).
            { apply Rmult_le_compat_r; [|lra]. assert (bpow radix2 (-53) <= 1); [|lra]. apply (bpow_le radix2 (-53) 0). lia. }
            lra. }
          apply Rle_lt_trans with (1 := rnd_le _ _ L2).
          replace (1 - bpow radix2 (-53)) with (IZR (2 ^ 53 - 1) * bpow radix2 (-53)) by (rewrite minus_IZR, Rmult_minus_distr_r, two53; lra).
          rewrite rnd_exact by lia. rewrite minus_IZR, Rmult_minus_distr_r, two53. pose proof (bpow_gt_0 radix2 (-53)). change (0 + 1)%Z with 1%Z. lra. }
  rewrite Ztrunc_floor by (apply Rle_trans with (2 := R1); apply IZR_le; exact Q0).
  apply Zfloor_imp. split; [exact R1|exact R2].
Qed.
Lemma div_trunc v k : (Z.abs v < 2 ^ 53)%Z -> (k <> 0)%Z -> Ztrunc (rnd (IZR v / IZR k)) = Z.quot v k.
Proof.
  intros Hv Hk.
  assert (P : forall v, (Z.abs v < 2 ^ 53)%Z -> forall k, (0 < k)%Z -> Ztrunc (rnd (IZR v / IZR k)) = Z.quot v k).
  { clear. intros v Hv k Hk. destruct (Z.le_gt_cases 0 v) as [L|L].
    - rewrite Z.quot_div_nonneg by lia. apply div_pos_trunc; lia.
    - replace v with (- (- v))%Z by lia. rewrite opp_IZR, Z.quot_opp_l by lia. unfold Rdiv. rewrite Ropp_mult_distr_l_reverse, rnd_opp, Ztrunc_opp.
      f_equal. rewrite Z.quot_div_nonneg by lia. apply div_pos_trunc; lia. }
  destruct (Z.lt_trichotomy k 0) as [L|[L|L]]; [|contradiction|now apply P].
  replace k with (- (- k))%Z by lia. rewrite opp_IZR, Z.quot_opp_r by lia. unfold Rdiv. rewrite Rinv_opp, Ropp_mult_distr_r_reverse, rnd_opp, Ztrunc_opp.
  f_equal. apply P; lia.
Qed.

(** ** To a double and back. *)
Local Notation eps := (bpow radix2 (-53)).
Lemma eps_pos : 0 < eps.
Proof. apply bpow_gt_0. Qed.
Lemma eps_small : eps <= / 16.
Proof. change (/ 16) with (bpow radix2 (-4)). apply bpow_le. lia. Qed.
Lemma eps_v v : (Z.abs v < 2 ^ 52)%Z -> Rabs (IZR v) * eps <= / 2.
Proof.
  intros H. rewrite <- abs_IZR. apply Rle_trans with (IZR (2 ^ 52) * eps).
  - apply Rmult_le_compat_r; [left; apply eps_pos|]. apply IZR_le. lia.
  - change (2 ^ 52)%Z with (radix2 ^ 52)%Z. rewrite (IZR_Zpower radix2 52) by lia. rewrite <- bpow_plus. change (bpow radix2 (52 + -53)) with (/ 2). lra.
Qed.
(** Relative error of rounding a positive number that is not tiny. *)
Lemma rnd_pos_error a : bpow radix2 (-1022) <= a -> a * (1 - eps) <= rnd a <= a * (1 + eps).
Proof.
  intros H. pose proof (bpow_gt_0 radix2 (-1022)). pose proof (rnd_error a) as E. rewrite (Rabs_pos_eq a) in E by lra.
  specialize (E H). apply Rabs_le_inv in E. lra.
Qed.
Lemma quotient_not_tiny v d : (1 <= v)%Z -> (1 <= d <= 2 ^ 53)%Z -> eps <= IZR v / IZR d.
Proof.
  intros Hv Hd. assert (Dp : 0 < IZR d) by (apply IZR_lt; lia).
  apply Rmult_le_reg_r with (IZR d); [exact Dp|]. unfold Rdiv. rewrite Rmult_assoc, Rinv_l, Rmult_1_r by lra.
  apply Rle_trans with 1; [|apply IZR_le; lia]. rewrite <- two53, Rmult_comm. apply Rmult_le_compat_r; [left; apply eps_pos|]. apply IZR_le. lia.
Qed.
Lemma roundtrip_pos v d : (1 <= v < 2 ^ 52)%Z -> (1 <= d <= 2 ^ 53)%Z ->
  IZR v - / 2 <= rnd (rnd (IZR v / IZR d) * IZR d) <= IZR v + / 2.
Proof.
  intros Hv Hd. assert (Dp : 0 < IZR d) by (apply IZR_lt; lia).
  pose proof (quotient_not_tiny v d ltac:(lia) Hd) as Q.
  pose proof (rnd_pos_error (IZR v / IZR d)) as E.
  specialize (E ltac:(apply Rle_trans with (2 := Q); apply bpow_le; lia)).
  pose proof (eps_v v ltac:(lia)) as V. rewrite Rabs_pos_eq in V by (apply IZR_le; lia).
  assert (A : IZR v / IZR d * IZR d = IZR v) by (field; lra).
  assert (B : IZR v * (1 - eps) <= rnd (IZR v / IZR d) * IZR d <= IZR v * (1 + eps)).
  { rewrite <- A at 1 4. split.
    - replace (IZR v / IZR d * IZR d * (1 - eps)) with (IZR v / IZR d * (1 - eps) * IZR d) by ring. apply Rmult_le_compat_r; lra.
    - replace (IZR v / IZR d * IZR d * (1 + eps)) with (IZR v / IZR d * (1 + eps) * IZR d) by ring. apply Rmult_le_compat_r; lra. }
  split.
  - replace (IZR v - / 2) with (IZR (v - 1) + / 2) by (rewrite minus_IZR; lra).
    rewrite <- (rnd_half (v - 1)) by lia. apply rnd_le. rewrite minus_IZR. lra.
  - rewrite <- (rnd_half v) by lia. apply rnd_le. lra.
Qed.
Lemma trunc_near v y : (1 <= v)%Z -> IZR v - / 2 <= y <= IZR v + / 2 -> Ztrunc y = v \/ Ztrunc y = (v - 1)%Z.
Proof.
  intros Hv [A B]. assert (1 <= IZR v) by (apply IZR_le; lia). rewrite Ztrunc_floor by lra.
  destruct (Rle_or_lt (IZR v) y) as [L|L].
  - left. apply Zfloor_imp. rewrite plus_IZR. lra.
  - right. apply Zfloor_imp. rewrite plus_IZR, minus_IZR. lra.
Qed.
Lemma roundtrip v d : (Z.abs v < 2 ^ 52)%Z -> (1 <= d <= 2 ^ 53)%Z ->
  let w := Ztrunc (rnd (rnd (IZR v / IZR d) * IZR d)) in w = v \/ w = (v - Z.sgn v)%Z.
Proof.
  intros Hv Hd w. destruct (Z.lt_trichotomy v 0) as [L|[L|L]].
  - assert (E : w = (- Ztrunc (rnd (rnd (IZR (- v) / IZR d) * IZR d)))%Z).
    { unfold w. rewrite <- Ztrunc_opp, <- rnd_opp. f_equal. f_equal. rewrite <- Ropp_mult_distr_l_reverse, <- rnd_opp. f_equal. f_equal.
      rewrite opp_IZR. field. apply IZR_neq. lia. }
    pose proof (roundtrip_pos (- v) d ltac:(lia) Hd) as R. apply trunc_near in R; [|lia]. lia.
  - left. unfold w. rewrite L. unfold Rdiv. rewrite Rmult_0_l, rnd_0, Rmult_0_l, rnd_0. apply Ztrunc_IZR.
  - pose proof (roundtrip_pos v d ltac:(lia) Hd) as R. apply trunc_near in R; [|lia]. fold w in R. lia.
Qed.
Lemma Rabs_quotient v d : (Z.abs v <= 2 ^ 53)%Z -> (1 <= d)%Z -> Rabs (IZR v / IZR d) <= bpow radix2 53.
Proof.
  intros Hv Hd. assert (1 <= IZR d) by (apply IZR_le; lia). unfold Rdiv. rewrite Rabs_mult, Rabs_inv, (Rabs_pos_eq (IZR d)) by lra.
  apply Rle_trans with (Rabs (IZR v) * 1); [|rewrite Rmult_1_r; apply IZR_bound; lia].
  apply Rmult_le_compat_l; [apply Rabs_pos|]. rewrite <- Rinv_1. apply Rinv_le; lra.
Qed.
Lemma price_double_stands p : (Z.abs (value p) <= 2 ^ 53)%Z -> (1 <= denominator (valuation p) <= 2 ^ 53)%Z ->
  stands (price_to_double p) (rnd (IZR (value p) / IZR (denominator (valuation p)))).
Proof.
  intros Hv Hd. apply div_stands; [apply of_Z_exact; lia|apply of_Z_exact; lia|apply IZR_neq; lia|].
  apply small_fits. apply small_bpow with 53%Z; [lia|]. apply Rabs_quotient; lia.
Qed.
Lemma approximate_stands x r c : stands x r -> Rabs r <= bpow radix2 100 -> (1 <= denominator c <= 2 ^ 53)%Z -> i64 (Ztrunc (rnd (r * IZR (denominator c)))) ->
  approximate x c = Ret (mk_price (Ztrunc (rnd (r * IZR (denominator c)))) c).
Proof.
  intros S B Hd I. unfold approximate. rewrite (to_i64_stands _ (rnd (r * IZR (denominator c)))); [reflexivity| |exact I].
  apply mul_stands; [exact S|apply of_Z_exact; lia|]. apply small_fits. apply small_bpow with 153%Z; [lia|].
  rewrite Rabs_mult. change 153%Z with (100 + 53)%Z. rewrite bpow_plus.
  apply Rmult_le_compat; [apply Rabs_pos|apply Rabs_pos|exact B|]. apply IZR_bound; lia.
Qed.
Lemma price_roundtrip v c : (Z.abs v < 2 ^ 52)%Z -> (1 <= denominator c <= 2 ^ 53)%Z ->
  exists w, approximate (price_to_double (mk_price v c)) c = Ret (mk_price w c) /\ (w = v \/ w = (v - Z.sgn v)%Z).
Proof.
  intros Hv Hd. pose proof (roundtrip v (denominator c) Hv Hd) as R. cbv zeta in R.
  eexists. split; [|exact R]. apply approximate_stands.
  - apply (price_double_stands (mk_price v c)); cbn [value valuation]; lia.
  - apply Rle_trans with (bpow radix2 53); [|apply bpow_le; lia]. apply rnd_bound; [lia|]. apply Rabs_quotient; lia.
  - exact Hd.
  - unfold i64. destruct R as [-> | ->]; lia.
Qed.
(** Denominators that are powers of two are harmless. *)
Lemma price_roundtrip_binary v c k : (Z.abs v <= 2 ^ 53)%Z -> (0 <= k <= 53)%Z -> denominator c = (2 ^ k)%Z ->
  approximate (price_to_double (mk_price v c)) c = Ret (mk_price v c).
Proof.
  intros Hv Hk E. assert (P : (1 <= denominator c <= 2 ^ 53)%Z).
  { rewrite E. split; [pose proof (Z.pow_pos_nonneg 2 k ltac:(lia) ltac:(lia)); lia|apply Z.pow_le_mono_r; lia]. }
  assert (D : IZR (denominator c) = bpow radix2 k).
  { rewrite E. change (2 ^ k)%Z with (radix2 ^ k)%Z. apply IZR_Zpower. lia. }
  assert (X : rnd (IZR v / IZR (denominator c)) = IZR v * bpow radix2 (- k)).
  { rewrite D. unfold Rdiv. rewrite <- bpow_opp. apply rnd_exact; lia. }
  assert (Y : rnd (IZR v * bpow radix2 (- k) * IZR (denominator c)) = IZR v).
  { rewrite D, Rmult_assoc, <- bpow_plus. replace (- k + k)%Z with 0%Z by lia. rewrite Rmult_1_r. apply rnd_IZR. exact Hv. }
  rewrite (approximate_stands _ (IZR v * bpow radix2 (- k))); [| | |exact P|].
  - now rewrite Y, Ztrunc_IZR.
  - rewrite <- X. apply (price_double_stands (mk_price v c)); cbn [value valuation]; lia.
  - rewrite <- X. apply Rle_trans with (bpow radix2 53); [|apply bpow_le; lia]. apply rnd_bound; [lia|]. apply Rabs_quotient; lia.
  - rewrite Y, Ztrunc_IZR. unfold i64. lia.
Qed.

(** ** Prices and doubles. *)
Lemma price_plus_units v k c : (Z.abs v <= 2 ^ 53)%Z -> (Z.abs k <= 2 ^ 53)%Z -> (Z.abs (v + k) <= 2 ^ 53)%Z ->
  price_plus (mk_price v c) (of_Z double k) = Ret (mk_price (v + k) c).
Proof.
  intros Hv Hk H. unfold price_plus. cbn [value valuation]. rewrite (to_i64_stands _ (IZR (v + k))).
  - now rewrite Ztrunc_IZR.
  - rewrite <- (rnd_IZR (v + k) H), plus_IZR. apply add_stands; [now apply of_Z_exact|now apply of_Z_exact|].
    apply small_fits. rewrite <- plus_IZR. apply small_bpow with 53%Z; [lia|]. apply IZR_bound; lia.
  - rewrite Ztrunc_IZR. unfold i64. lia.
Qed.
Lemma price_minus_units v k c : (Z.abs v <= 2 ^ 53)%Z -> (Z.abs k <= 2 ^ 53)%Z -> (Z.abs (v - k) <= 2 ^ 53)%Z ->
  price_minus (mk_price v c) (of_Z double k) = Ret (mk_price (v - k) c).
Proof.
  intros Hv Hk H. unfold price_minus. cbn [value valuation]. rewrite (to_i64_stands _ (IZR (v - k))).
  - now rewrite Ztrunc_IZR.
  - rewrite <- (rnd_IZR (v - k) H), minus_IZR. apply sub_stands; [now apply of_Z_exact|now apply of_Z_exact|].
    apply small_fits. rewrite <- minus_IZR. apply small_bpow with 53%Z; [lia|]. apply IZR_bound; lia.
  - rewrite Ztrunc_IZR. unfold i64. lia.
Qed.
Lemma price_times_units v k c : (Z.abs v <= 2 ^ 53)%Z -> (Z.abs k <= 2 ^ 53)%Z -> (Z.abs (v * k) <= 2 ^ 53)%Z ->
  price_times (mk_price v c) (of_Z double k) = Ret (mk_price (v * k) c).
Proof.
  intros Hv Hk H. unfold price_times. cbn [value valuation]. rewrite (to_i64_stands _ (IZR (v * k))).
  - now rewrite Ztrunc_IZR.
  - rewrite <- (rnd_IZR (v * k) H), mult_IZR. apply mul_stands; [now apply of_Z_exact|now apply of_Z_exact|].
    apply small_fits. rewrite <- mult_IZR. apply small_bpow with 53%Z; [lia|]. apply IZR_bound; lia.
  - rewrite Ztrunc_IZR. unfold i64. lia.
Qed.
Lemma quot_bound v k : (k <> 0)%Z -> (Z.abs (Z.quot v k) <= Z.abs v)%Z.
Proof.
  intros Hk. rewrite <- Z.quot_abs by exact Hk. rewrite Z.quot_div_nonneg by lia. apply Z.div_le_upper_bound; [lia|].
  rewrite <- (Z.mul_1_l (Z.abs v)) at 1. apply Z.mul_le_mono_nonneg_r; lia.
Qed.
Lemma price_over_units v k c : (Z.abs v < 2 ^ 53)%Z -> (1 <= Z.abs k <= 2 ^ 53)%Z ->
  price_over (mk_price v c) (of_Z double k) = Ret (mk_price (Z.quot v k) c).
Proof.
  intros Hv Hk. unfold price_over. cbn [value valuation]. rewrite (to_i64_stands _ (rnd (IZR v / IZR k))).
  - rewrite div_trunc by lia. reflexivity.
  - apply div_stands; [apply of_Z_exact; lia|apply of_Z_exact; lia|apply IZR_neq; lia|].
    apply small_fits. apply small_bpow with 53%Z; [lia|]. unfold Rdiv. rewrite Rabs_mult, Rabs_inv, <- abs_IZR, <- (abs_IZR k), <- (Rabs_pos_eq (IZR (Z.abs k))), <- Rabs_inv.
    + rewrite <- (Rabs_pos_eq (IZR (Z.abs v))), <- Rabs_mult by (apply IZR_le; lia). apply (Rabs_quotient (Z.abs v) (Z.abs k)); lia.
    + apply IZR_le. lia.
  - rewrite div_trunc by lia. unfold i64. pose proof (quot_bound v k ltac:(lia)). lia.
Qed.

(** ** Quotes to a double and back. *)
Lemma Rdiv_le_one a l : 0 <= a -> 1 <= l -> a / l <= a.
Proof.
  intros Ha Hl. rewrite <- (Rmult_1_r a) at 2. apply Rmult_le_compat_l; [exact Ha|]. rewrite <- Rinv_1. apply Rinv_le; lra.
Qed.
Lemma quote_pos v d l : (1 <= v < 2 ^ 52)%Z -> (1 <= d <= 2 ^ 53)%Z -> (1 <= l < 2 ^ 32)%Z ->
  let y := rnd (rnd (rnd (IZR v / IZR d) / IZR l) * IZR d) in
  IZR v / IZR l * ((1 - eps) * (1 - eps) * (1 - eps)) <= y <= IZR v / IZR l * ((1 + eps) * (1 + eps) * (1 + eps)).
Proof.
  intros Hv Hd Hl y.
  assert (Dp : 1 <= IZR d) by (apply IZR_le; lia). assert (Lp : 1 <= IZR l) by (apply IZR_le; lia).
  pose proof eps_pos as E0. pose proof eps_small as E1.
  pose proof (quotient_not_tiny v d ltac:(lia) Hd) as Q.
  pose proof (rnd_pos_error (IZR v / IZR d) ltac:(apply Rle_trans with (2 := Q); apply bpow_le; lia)) as A.
  set (a := rnd (IZR v / IZR d)) in *.
  assert (Hl2 : IZR l <= bpow radix2 32).
  { change (bpow radix2 32) with (IZR (2 ^ 32)). apply IZR_le. lia. }
  assert (B0 : bpow radix2 (-100) <= a / IZR l).
  { apply Rmult_le_reg_r with (IZR l); [lra|]. unfold Rdiv. rewrite Rmult_assoc, Rinv_l, Rmult_1_r by lra.
    apply Rle_trans with (bpow radix2 (-100) * bpow radix2 32); [apply Rmult_le_compat_l; [apply bpow_ge_0|exact Hl2]|].
    rewrite <- bpow_plus. apply Rle_trans with (eps * / 2).
    - change (/ 2) with (bpow radix2 (-1)). rewrite <- bpow_plus. apply bpow_le. lia.
    - apply Rle_trans with (2 := proj1 A). apply Rmult_le_compat; lra. }
  pose proof (rnd_pos_error (a / IZR l) ltac:(apply Rle_trans with (2 := B0); apply bpow_le; lia)) as B.
  set (b := rnd (a / IZR l)) in *.
  assert (C0 : bpow radix2 (-101) <= b * IZR d).
  { apply Rle_trans with (b * 1).
    - rewrite Rmult_1_r. apply Rle_trans with (2 := proj1 B). change (-101)%Z with (-100 + -1)%Z. rewrite bpow_plus.
      apply Rmult_le_compat; [apply bpow_ge_0|apply bpow_ge_0|exact B0|]. change (bpow radix2 (-1)) with (/ 2). lra.
    - apply Rmult_le_compat_l; [|exact Dp]. apply Rle_trans with (2 := proj1 B). apply Rmult_le_pos; [|lra].
      apply Rle_trans with (2 := B0). apply bpow_ge_0. }
  pose proof (rnd_pos_error (b * IZR d) ltac:(apply Rle_trans with (2 := C0); apply bpow_le; lia)) as C. fold y in C.
  assert (X1 : IZR v / IZR l * (1 - eps) <= a * IZR d / IZR l <= IZR v / IZR l * (1 + eps)).
  { assert (Hinv : 0 < IZR d / IZR l) by (apply Rdiv_lt_0_compat; lra).
    replace (IZR v / IZR l) with (IZR v / IZR d * (IZR d / IZR l)) by (field; lra).
    replace (a * IZR d / IZR l) with (a * (IZR d / IZR l)) by (field; lra).
    split.
    - replace (IZR v / IZR d * (IZR d / IZR l) * (1 - eps)) with (IZR v / IZR d * (1 - eps) * (IZR d / IZR l)) by ring. apply Rmult_le_compat_r; lra.
    - replace (IZR v / IZR d * (IZR d / IZR l) * (1 + eps)) with (IZR v / IZR d * (1 + eps) * (IZR d / IZR l)) by ring. apply Rmult_le_compat_r; lra. }
  assert (X2 : a * IZR d / IZR l * (1 - eps) <= b * IZR d <= a * IZR d / IZR l * (1 + eps)).
  { replace (a * IZR d / IZR l) with (a / IZR l * IZR d) by (field; lra). split.
    - replace (a / IZR l * IZR d * (1 - eps)) with (a / IZR l * (1 - eps) * IZR d) by ring. apply Rmult_le_compat_r; lra.
    - replace (a / IZR l * IZR d * (1 + eps)) with (a / IZR l * (1 + eps) * IZR d) by ring. apply Rmult_le_compat_r; lra. }
  split.
  - apply Rle_trans with (2 := proj1 C). rewrite <- !Rmult_assoc. apply Rmult_le_compat_r; [lra|].
    apply Rle_trans with (2 := proj1 X2). apply Rmult_le_compat_r; lra.
  - apply Rle_trans with (1 := proj2 C). rewrite <- !Rmult_assoc. apply Rmult_le_compat_r; [lra|].
    apply Rle_trans with (1 := proj2 X2). apply Rmult_le_compat_r; lra.
Qed.
Lemma cube_bounds : 1 - 4 * eps <= (1 - eps) * (1 - eps) * (1 - eps) /\ (1 + eps) * (1 + eps) * (1 + eps) <= 1 + 4 * eps.
Proof. pose proof eps_pos. pose proof eps_small. split; nra. Qed.
Lemma quote_trunc_pos v d l : (1 <= v < 2 ^ 50)%Z -> (1 <= d <= 2 ^ 53)%Z -> (1 <= l < 2 ^ 32)%Z ->
  let w := Ztrunc (rnd (rnd (rnd (IZR v / IZR d) / IZR l) * IZR d)) in
  (0 <= w /\ (v - 2 * l < w * l < v + l) /\ (2 <= l -> w < v))%Z.
Proof.
  intros Hv Hd Hl w. pose proof (quote_pos v d l ltac:(lia) Hd Hl) as P. cbv zeta in P.
  set (y := rnd (rnd (rnd (IZR v / IZR d) / IZR l) * IZR d)) in *. subst w.
  assert (Lp : 1 <= IZR l) by (apply IZR_le; lia). assert (Vp : 1 <= IZR v) by (apply IZR_le; lia).
  pose proof eps_pos as E0. pose proof eps_small as E1. destruct cube_bounds as [C1 C2].
  assert (V8 : IZR v * eps < / 8).
  { apply Rlt_le_trans with (IZR (2 ^ 50) * eps).
    - apply Rmult_lt_compat_r; [exact E0|]. apply IZR_lt. lia.
    - change (2 ^ 50)%Z with (radix2 ^ 50)%Z. rewrite (IZR_Zpower radix2 50) by lia. rewrite <- bpow_plus. change (bpow radix2 (50 + -53)) with (/ 8). lra. }
  set (q := IZR v / IZR l) in *.
  assert (Q0 : 0 < q) by (apply Rdiv_lt_0_compat; lra).
  assert (Q1 : q <= IZR v) by (apply Rdiv_le_one; lra).
  assert (Q2 : q * IZR l = IZR v) by (unfold q; field; lra).
  assert (Y : q - / 2 < y < q + / 2).
  { assert (q * eps < / 8) by (apply Rle_lt_trans with (2 := V8); apply Rmult_le_compat_r; lra).
    assert (q * (1 - 4 * eps) <= y) by (apply Rle_trans with (2 := proj1 P); apply Rmult_le_compat_l; lra).
    assert (y <= q * (1 + 4 * eps)) by (apply Rle_trans with (1 := proj2 P); apply Rmult_le_compat_l; lra). lra. }
  assert (Y0 : 0 <= y).
  { apply Rle_trans with (2 := proj1 P). apply Rmult_le_pos; [lra|]. apply Rmult_le_pos; [apply Rmult_le_pos|]; lra. }
  rewrite Ztrunc_floor by exact Y0. pose proof (Zfloor_lb y) as F1. pose proof (Zfloor_ub y) as F2.
  assert (W0 : (0 <= Zfloor y)%Z) by (apply (Zfloor_lub 0); exact Y0). set (w := Zfloor y) in *.
  assert (W1 : q - 2 < IZR w < q + 1) by lra.
  split; [exact W0|]. split.
  - split; apply lt_IZR; rewrite ?minus_IZR, ?plus_IZR, ?mult_IZR, <- Q2.
    + replace (q * IZR l - 2 * IZR l) with ((q - 2) * IZR l) by ring. apply Rmult_lt_compat_r; lra.
    + replace (q * IZR l + IZR l) with ((q + 1) * IZR l) by ring. apply Rmult_lt_compat_r; lra.
  - intros H2. apply lt_IZR. assert (L2 : 2 <= IZR l) by (apply IZR_le; exact H2).
    assert (q <= IZR v / 2). { apply Rmult_le_reg_r with (IZR l); [lra|]. rewrite Q2. nra. }
    assert (y <= q * (1 + 4 * eps)) by (apply Rle_trans with (1 := proj2 P); apply Rmult_le_compat_l; lra).
    assert (q * eps < / 8) by (apply Rle_lt_trans with (2 := V8); apply Rmult_le_compat_r; lra).
    nra.
Qed.
Lemma quote_trunc v d l : (Z.abs v < 2 ^ 50)%Z -> (1 <= d <= 2 ^ 53)%Z -> (1 <= l < 2 ^ 32)%Z ->
  let w := Ztrunc (rnd (rnd (rnd (IZR v / IZR d) / IZR l) * IZR d)) in
  (Z.abs w <= 2 ^ 54 /\ Z.abs (w * l - v) < 2 * l /\ (2 <= l -> v <> 0 -> w <> v))%Z.
Proof.
  intros Hv Hd Hl w.
  assert (Q : forall v, (1 <= v < 2 ^ 50)%Z -> let w := Ztrunc (rnd (rnd (rnd (IZR v / IZR d) / IZR l) * IZR d)) in
    (Z.abs w <= 2 ^ 54 /\ Z.abs (w * l - v) < 2 * l /\ (2 <= l -> v <> 0 -> w <> v))%Z).
  { clear v Hv w. intros v Hv w. destruct (quote_trunc_pos v d l Hv Hd Hl) as (A & B & C). fold w in A, B, C.
    split; [|split]; [|lia|lia]. assert (w * 1 <= w * l)%Z by (apply Z.mul_le_mono_nonneg_l; lia). lia. }
  destruct (Z.lt_trichotomy v 0) as [L|[L|L]].
  - assert (E : w = (- Ztrunc (rnd (rnd (rnd (IZR (- v) / IZR d) / IZR l) * IZR d)))%Z).
    { unfold w. rewrite <- Ztrunc_opp, <- rnd_opp. f_equal. f_equal. rewrite <- Ropp_mult_distr_l_reverse, <- rnd_opp. f_equal. f_equal.
      unfold Rdiv at 1 3. rewrite <- Ropp_mult_distr_l_reverse, <- rnd_opp. f_equal. f_equal.
      rewrite opp_IZR. field. apply IZR_neq. lia. }
    specialize (Q (- v)%Z ltac:(lia)). cbv zeta in Q. set (u := Ztrunc (rnd (rnd (rnd (IZR (- v) / IZR d) / IZR l) * IZR d))) in *.
    rewrite E. destruct Q as (A & B & C). split; [lia|]. split; [|lia]. replace (- u * l - v)%Z with (- (u * l - - v))%Z by ring. now rewrite Z.abs_opp.
  - assert (w = 0)%Z as ->.
    { unfold w. rewrite L. unfold Rdiv. rewrite Rmult_0_l, rnd_0, Rmult_0_l, rnd_0, Rmult_0_l, rnd_0. apply Ztrunc_IZR. }
    subst v. lia.
  - apply Q. lia.
Qed.
Lemma quote_roundtrip q : (Z.abs (value (q_price q)) < 2 ^ 50)%Z -> (1 <= denominator (valuation (q_price q)) <= 2 ^ 53)%Z -> (1 <= lot q < 2 ^ 32)%Z ->
  exists w, quote_from (quote_to_double q) q = Ret (mk_quote (lot q) (mk_price w (valuation (q_price q)))) /\
    (Z.abs (w * lot q - value (q_price q)) < 2 * lot q)%Z /\ (2 <= lot q -> value (q_price q) <> 0 -> w <> value (q_price q))%Z.
Proof.
  intros Hv Hd Hl. destruct (quote_trunc _ _ _ Hv Hd Hl) as (A & B & C).
  eexists. split; [|split; [exact B|exact C]].
  unfold quote_from, quote_to_double.
  assert (S : stands (price_to_double (q_price q)) (rnd (IZR (value (q_price q)) / IZR (denominator (valuation (q_price q)))))).
  { apply price_double_stands; lia. }
  assert (Lp : 1 <= IZR (lot q)) by (apply IZR_le; lia).
  assert (B1 : Rabs (rnd (IZR (value (q_price q)) / IZR (denominator (valuation (q_price q))))) <= bpow radix2 53).
  { apply rnd_bound; [lia|]. apply Rabs_quotient; lia. }
  assert (B2 : Rabs (rnd (IZR (value (q_price q)) / IZR (denominator (valuation (q_price q)))) / IZR (lot q)) <= bpow radix2 53).
  { unfold Rdiv at 1. rewrite Rabs_mult, Rabs_inv, (Rabs_pos_eq (IZR (lot q))) by lra.
    apply Rle_trans with (2 := B1). apply Rdiv_le_one; [apply Rabs_pos|exact Lp]. }
  rewrite (approximate_stands _ (rnd (rnd (IZR (value (q_price q)) / IZR (denominator (valuation (q_price q)))) / IZR (lot q)))).
  - unfold new_quote. assert ((lot q =? 0)%Z = false) as -> by lia. reflexivity.
  - apply div_stands; [exact S|apply of_Z_exact; lia|lra|]. apply small_fits. apply small_bpow with 53%Z; [lia|exact B2].
  - apply Rle_trans with (bpow radix2 53); [|apply bpow_le; lia]. apply rnd_bound; [lia|exact B2].
  - exact Hd.
  - unfold i64. lia.
Qed.
(** ** What does not fit. *)
Lemma to_i64_out x r : stands x r -> ~ i64 (Ztrunc r) -> to_i64 x = UB.
Proof.
  intros S H. rewrite <- (trunc_stands x r S) in *. destruct S as (b & <- & F & _).
  destruct b as [s|s| |s m e B]; try discriminate F; [exfalso; apply H; cbn; unfold i64; lia|]. cbn [B2SF] in H |- *. unfold to_i64.
  destruct (in_i64 _) eqn:E; [|reflexivity]. apply in_i64_iff in E. contradiction.
Qed.
Lemma approximate_too_large x c :
  ((exists s, x = S754_infinity s) \/ x = S754_nan \/ (exists z, (2 ^ 63 <= z < 2 ^ 900)%Z /\ x = of_Z double z)) ->
  (1 <= denominator c <= 2 ^ 53)%Z -> approximate x c = UB.
Proof.
  intros H D. unfold approximate. enough (E : to_i64 (mul double x (of_Z double (denominator c))) = UB) by (now rewrite E).
  destruct H as [[s ->]|[->|(z & Hz & ->)]].
  - pose proof (of_Z_exact (denominator c) ltac:(lia)) as (b & E & F & R). rewrite <- E. destruct b as [t|t| |t m e B]; try discriminate F; [reflexivity|reflexivity].
  - reflexivity.
  - assert (P63 : bpow radix2 63 = IZR (2 ^ 63)) by reflexivity.
    assert (A : IZR (2 ^ 63) <= rnd (IZR z)).
    { rewrite <- P63. rewrite <- (Rmult_1_l (bpow radix2 63)). rewrite <- (rnd_exact 1 63) by lia. apply rnd_le. rewrite Rmult_1_l, P63. apply IZR_le. lia. }
    assert (B : Rabs (rnd (IZR z)) <= bpow radix2 900) by (apply rnd_bound; [lia|]; apply IZR_bound; lia).
    assert (D1 : 1 <= IZR (denominator c)) by (apply IZR_le; lia).
    assert (D2 : IZR (denominator c) <= bpow radix2 53) by (change (bpow radix2 53) with (IZR (2 ^ 53)); apply IZR_le; lia).
    pose proof (IZR_lt 0 (2 ^ 63) ltac:(lia)) as P.
    rewrite Rabs_pos_eq in B by lra.
    apply to_i64_out with (rnd (rnd (IZR z) * IZR (denominator c))).
    + apply mul_stands; [apply of_Z_stands; apply Rle_lt_trans with (bpow radix2 900); [rewrite Rabs_pos_eq by lra; exact B|apply bpow_lt; reflexivity]|apply of_Z_exact; lia|].
      apply small_fits. apply Rle_trans with (bpow radix2 900 * bpow radix2 53); [|rewrite <- bpow_plus; apply bpow_le; lia].
      rewrite Rabs_pos_eq by (apply Rmult_le_pos; lra). apply Rmult_le_compat; lra.
    + assert (G : IZR (2 ^ 63) <= rnd (rnd (IZR z) * IZR (denominator c))).
      { rewrite <- P63. rewrite <- (Rmult_1_l (bpow radix2 63)). rewrite <- (rnd_exact 1 63) by lia. apply rnd_le. rewrite Rmult_1_l, P63.
        rewrite <- (Rmult_1_r (IZR (2 ^ 63))). apply Rmult_le_compat; lra. }
      assert (T : (2 ^ 63 <= Ztrunc (rnd (rnd (IZR z) * IZR (denominator c))))%Z).
      { rewrite Ztrunc_floor by lra. apply Zfloor_lub. exact G. }
      unfold i64. lia.
Qed.
