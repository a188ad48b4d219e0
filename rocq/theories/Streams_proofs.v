(** Proofs about comparisons of quantities with numbers and about printed values. *)
From Coq Require Import SpecFloat Reals Psatz ZifyBool ZifyNat.
From Flocq Require Import Core IEEE754.BinarySingleNaN.
From Verif Require Import Base Text Identity Identity_spec Identity_proofs Money StaticTicks Prices Double_proofs Streams Streams_spec.
Local Open Scope R_scope.

(** ** Comparisons. *)
Lemma compare_stands x y a b : stands x a -> stands y b -> SFcompare x y = Some (Rcompare a b).
Proof. intros (u & <- & Fu & <-) (v & <- & Fv & <-). exact (Bcompare_correct 53 1024 u v Fu Fv). Qed.
Lemma eqb_stands x y a b : stands x a -> stands y b -> (SFeqb x y = true <-> a = b).
Proof. intros A B. unfold SFeqb. rewrite (compare_stands _ _ _ _ A B). destruct (Rcompare_spec a b); split; intros; try discriminate; try lra; reflexivity. Qed.
Lemma ltb_stands x y a b : stands x a -> stands y b -> (SFltb x y = true <-> a < b).
Proof. intros A B. unfold SFltb. rewrite (compare_stands _ _ _ _ A B). destruct (Rcompare_spec a b); split; intros; try discriminate; try lra; reflexivity. Qed.
Lemma stands_format x r : stands x r -> rnd r = r.
Proof. intros (b & _ & F & <-). apply round_generic; [typeclasses eauto|]. apply generic_format_B2R. Qed.
Lemma amount_small z : (Z.abs z <= 2 ^ 64)%Z -> Rabs (IZR z) <= bpow radix2 64.
Proof. intros H. rewrite <- abs_IZR, <- (IZR_Zpower radix2 64) by lia. apply IZR_le. exact H. Qed.
Lemma amount_stands z : (Z.abs z <= 2 ^ 64)%Z -> stands (of_Z double z) (rnd (IZR z)).
Proof. intros H. apply of_Z_stands. apply small_fits. apply Rle_trans with (1 := amount_small z H). apply bpow_le. lia. Qed.
(** Integers of more than 53 bits are rounded to even integers. *)
Lemma rnd_even z : (2 ^ 53 < Z.abs z)%Z -> exists k, rnd (IZR z) = IZR (2 * k).
Proof.
  intros H. unfold rnd. unfold round, F2R. cbn [Fnum Fexp].
  assert (M : (54 <= mag radix2 (IZR z))%Z).
  { apply mag_ge_bpow. rewrite <- abs_IZR. change (54 - 1)%Z with 53%Z. rewrite <- (IZR_Zpower radix2 53) by lia. apply IZR_le. change (radix2 ^ 53)%Z with (2 ^ 53)%Z. lia. }
  assert (C : (1 <= cexp radix2 fexp64 (IZR z))%Z) by (unfold cexp, fexp64, SpecFloat.fexp; lia).
  set (m := ZnearestE _). set (c := cexp _ _ _) in *.
  exists (m * 2 ^ (c - 1))%Z. rewrite <- (IZR_Zpower radix2 c) by lia. rewrite <- mult_IZR. f_equal. change (radix_val radix2) with 2%Z.
  replace c with (1 + (c - 1))%Z at 1 by lia. rewrite Z.pow_add_r by lia. lia.
Qed.

Lemma compare_exact amount x r : (0 <= amount <= 2 ^ 53)%Z -> stands x r ->
  (quantity_eqb amount x = true <-> IZR amount = r) /\ (quantity_ltb amount x = true <-> IZR amount < r) /\ (quantity_gtb amount x = true <-> IZR amount > r) /\
  (quantity_leb amount x = true <-> IZR amount <= r) /\ (quantity_geb amount x = true <-> IZR amount >= r).
Proof.
  intros H S. pose proof (of_Z_exact amount ltac:(lia)) as A. pose proof (eqb_stands _ _ _ _ A S) as E. pose proof (ltb_stands _ _ _ _ A S) as L. pose proof (ltb_stands _ _ _ _ S A) as G.
  unfold quantity_leb, quantity_geb, quantity_eqb, quantity_ltb, quantity_gtb. rewrite !Bool.orb_true_iff, E, L, G. repeat split; intros; lra.
Qed.
Lemma compare_any amount x r : (0 <= amount < 2 ^ 64)%Z -> stands x r ->
  (quantity_ltb amount x = true -> IZR amount < r) /\ (quantity_gtb amount x = true -> IZR amount > r) /\
  (IZR amount <= r -> quantity_leb amount x = true) /\ (IZR amount >= r -> quantity_geb amount x = true) /\ (IZR amount = r -> quantity_eqb amount x = true).
Proof.
  intros H S. pose proof (amount_stands amount ltac:(lia)) as A. pose proof (eqb_stands _ _ _ _ A S) as E. pose proof (ltb_stands _ _ _ _ A S) as L. pose proof (ltb_stands _ _ _ _ S A) as G.
  pose proof (stands_format x r S) as F. unfold quantity_leb, quantity_geb, quantity_eqb, quantity_ltb, quantity_gtb. rewrite !Bool.orb_true_iff. repeat split; intros U.
  - apply L in U. apply Rnot_le_lt. intros V. apply rnd_le in V. lra.
  - apply G in U. apply Rlt_gt, Rnot_le_lt. intros V. apply rnd_le in V. lra.
  - apply rnd_le in U. rewrite F in U. destruct (Req_dec (rnd (IZR amount)) r); [right; now apply E|left; apply L; lra].
  - apply Rge_le, rnd_le in U. rewrite F in U. destruct (Req_dec (rnd (IZR amount)) r); [right; now apply E|left; apply G; lra].
  - apply E. rewrite U. exact F.
Qed.
Lemma compare_wrong amount : (2 ^ 53 < amount < 2 ^ 64)%Z -> Z.odd amount = true -> exists x r, stands x r /\ r <> IZR amount /\ quantity_eqb amount x = true.
Proof.
  intros H O. pose proof (amount_stands amount ltac:(lia)) as A. exists (of_Z double amount), (rnd (IZR amount)). split; [exact A|]. split.
  - destruct (rnd_even amount ltac:(lia)) as [k ->]. intros E. apply eq_IZR in E. subst amount. rewrite Z.odd_mul in O. discriminate O.
  - unfold quantity_eqb. apply (eqb_stands _ _ _ _ A A). reflexivity.
Qed.

(** ** Decimals of a double. *)
Lemma half_even_near n q K : (0 < q)%Z -> (2 * Z.abs (n - K * q) < q)%Z -> half_even n q = K.
Proof.
  intros Q H. unfold half_even. pose proof (Z.div_mod n q ltac:(lia)) as D. pose proof (Z.mod_pos_bound n q Q) as B.
  set (a := (n / q)%Z) in *. set (r := (n mod q)%Z) in *. cbv zeta.
  assert (K = a \/ K = a + 1)%Z as [-> | ->].
  { destruct (Z_lt_le_dec K a) as [L|L]. { assert (n - K * q >= q)%Z by nia. lia. } destruct (Z_lt_le_dec (a + 1) K) as [M|M]. { assert (n - K * q <= r - 2 * q)%Z by nia. lia. } lia. }
  - replace (n - a * q)%Z with r in H by lia. replace (2 * r <? q)%Z with true by lia. reflexivity.
  - replace (n - (a + 1) * q)%Z with (r - q)%Z in H by lia. replace (2 * r <? q)%Z with false by lia. replace (q <? 2 * r)%Z with true by lia. reflexivity.
Qed.
Lemma decimals_near x r d K : stands x r -> (0 <= d)%Z -> Rabs (Rabs r * IZR (10 ^ d) - IZR K) < / 2 -> decimals x d = K.
Proof.
  intros (b & <- & F & <-) Hd H. destruct b as [s|s| |s m e B]; try discriminate F; cbn in *.
  - rewrite Rabs_R0, Rmult_0_l in H. assert (Rabs (IZR (- K)) < 1) by (rewrite opp_IZR; replace (- IZR K) with (0 - IZR K) by ring; lra). rewrite <- abs_IZR in H0. apply lt_IZR in H0. lia.
  - assert (A : Rabs (F2R (Float radix2 (cond_Zopp s (Z.pos m)) e)) = IZR (Z.pos m) * bpow radix2 e).
    { rewrite <- F2R_Zabs. rewrite abs_cond_Zopp. reflexivity. }
    rewrite A in H. destruct (Z.leb_spec 0 e) as [E|E].
    + rewrite <- (IZR_Zpower radix2 e E) in H. rewrite <- !mult_IZR, <- minus_IZR in H. change (radix_val radix2) with 2%Z in H.
      set (v := (Z.pos m * 2 ^ e * 10 ^ d)%Z) in *. assert (Rabs (IZR (v - K)) < 1) by lra. rewrite <- abs_IZR in H0. apply lt_IZR in H0. lia.
    + assert (Q : (0 < 2 ^ (- e))%Z) by (apply Z.pow_pos_nonneg; lia). apply half_even_near; [exact Q|].
      apply lt_IZR. rewrite mult_IZR, abs_IZR, minus_IZR, !mult_IZR. set (q := IZR (2 ^ (- e))) in *.
      assert (Qr : 0 < q) by (apply IZR_lt in Q; exact Q).
      assert (P : bpow radix2 e = / q). { unfold q. rewrite <- (Z.opp_involutive e) at 1. rewrite bpow_opp. f_equal. rewrite <- (IZR_Zpower radix2 (- e)) by lia. reflexivity. }
      rewrite P in H. replace (IZR (Z.pos m) * IZR (10 ^ d) - IZR K * q) with ((IZR (Z.pos m) * / q * IZR (10 ^ d) - IZR K) * q) by (field; lra).
      rewrite Rabs_mult, (Rabs_right q) by lra. nra.
Qed.

(** ** Prices as doubles. *)
Lemma price_stands v n : (Z.abs v <= 2 ^ 53)%Z -> (0 < n <= 2 ^ 53)%Z -> stands (div double (of_Z double v) (of_Z double n)) (rnd (IZR v / IZR n)).
Proof.
  intros Hv Hn. assert (N : 1 <= IZR n) by (apply IZR_le; lia). apply div_stands; [now apply of_Z_exact|apply of_Z_exact; lia|lra|].
  apply small_fits. unfold Rdiv. rewrite Rabs_mult. apply Rle_trans with (Rabs (IZR v) * 1).
  - apply Rmult_le_compat_l; [apply Rabs_pos|]. rewrite Rabs_inv, Rabs_right by lra. rewrite <- Rinv_1. apply Rinv_le; lra.
  - rewrite Rmult_1_r. apply Rle_trans with (bpow radix2 64); [apply amount_small; lia|apply bpow_le; lia].
Qed.
Lemma bpow_small : bpow radix2 (-1022) <= / IZR (2 ^ 53).
Proof. change (2 ^ 53)%Z with (radix2 ^ 53)%Z. rewrite (IZR_Zpower radix2 53) by lia. rewrite <- bpow_opp. apply bpow_le. lia. Qed.
Lemma price_near v n d K : (0 < n <= 2 ^ 53)%Z -> (0 <= d)%Z -> (Z.abs v <= 2 ^ 53)%Z -> (K * n = v * 10 ^ d)%Z -> (Z.abs K < 2 ^ 52)%Z ->
  Rabs (Rabs (rnd (IZR v / IZR n)) * IZR (10 ^ d) - IZR (Z.abs K)) < / 2.
Proof.
  intros Hn Hd Hv E HK. set (a := IZR v / IZR n). set (t := IZR (10 ^ d)). assert (N : 1 <= IZR n) by (apply IZR_le; lia).
  assert (T : 0 < t) by (apply (IZR_lt 0); apply Z.pow_pos_nonneg; lia).
  assert (KE : IZR (Z.abs K) = Rabs a * t).
  { rewrite abs_IZR. rewrite <- (Rabs_right t) by lra. rewrite <- Rabs_mult. f_equal. unfold a, t. apply (Rmult_eq_reg_r (IZR n)); [|lra]. rewrite <- mult_IZR, E, mult_IZR. field. lra. }
  rewrite KE. destruct (Z.eq_dec v 0) as [->|V].
  { unfold a. unfold Rdiv. rewrite Rmult_0_l, rnd_0, Rabs_R0, Rmult_0_l, Rminus_0_r, Rabs_R0. lra. }
  assert (L : bpow radix2 (-1022) <= Rabs a).
  { apply Rle_trans with (1 := bpow_small). unfold a, Rdiv. rewrite Rabs_mult, Rabs_inv, (Rabs_right (IZR n)) by lra.
    assert (1 <= Rabs (IZR v)) by (rewrite <- abs_IZR; apply IZR_le; lia). apply Rle_trans with (1 * / IZR n).
    - rewrite Rmult_1_l. apply Rinv_le; [lra|apply IZR_le; lia].
    - apply Rmult_le_compat_r; [|assumption]. left. apply Rinv_0_lt_compat. lra. }
  pose proof (rnd_error a L) as X.
  assert (Y : Rabs (Rabs (rnd a) - Rabs a) <= bpow radix2 (-53) * Rabs a) by (apply Rle_trans with (2 := X); apply Rabs_triang_inv2).
  replace (Rabs (rnd a) * t - Rabs a * t) with ((Rabs (rnd a) - Rabs a) * t) by ring. rewrite Rabs_mult, (Rabs_right t) by lra.
  apply Rle_lt_trans with (bpow radix2 (-53) * (Rabs a * t)). { rewrite <- Rmult_assoc. apply Rmult_le_compat_r; lra. }
  rewrite <- KE. apply Rlt_le_trans with (bpow radix2 (-53) * bpow radix2 52).
  - apply Rmult_lt_compat_l; [apply bpow_gt_0|]. rewrite <- (IZR_Zpower radix2 52) by lia. apply IZR_lt. exact HK.
  - rewrite <- bpow_plus. change (-53 + 52)%Z with (-1)%Z. change (bpow radix2 (-1)) with (/ 2). lra.
Qed.
