(** Volumes and payments in double precision. *)
From Coq Require Import SpecFloat QArith Qabs Qpower Qreals Reals Psatz.
From Flocq Require Import Core IEEE754.BinarySingleNaN.
From Verif Require Import Base Identity StaticTicks Double_proofs Prices_proofs Rounding_proofs Demands Demands_spec Demands_proofs Demands_proofs2.
From Coq Require Import ZifyBool.
Local Open Scope R_scope.
Local Notation eps := (bpow radix2 (-53)).

(** Payments: as [cash_double], for any number of units to one of the currency. *)
Lemma paid_double n q : (0 <= n <= 2 ^ 53)%Z -> (0 <= q_value q <= 2 ^ 53)%Z -> (100 * (n * q_value q) < 2 ^ 50)%Z -> (1 <= q_denominator q <= 2 ^ 53)%Z -> (1 <= q_lot q <= 2 ^ 53)%Z ->
  let due := (100 * (n * q_value q))%Z in let d := (q_denominator q * q_lot q)%Z in
  paid double n q = (due / d)%Z \/ (due mod d = 0 /\ 0 < due /\ paid double n q = due / d - 1)%Z.
Proof.
  destruct q as [price den lot]. cbn [q_value q_denominator q_lot]. intros Hu Hp Hup Hd Hl. cbv zeta. unfold paid. cbn [q_value q_denominator q_lot]. change (trunc_Z double) with double_trunc.
  assert (Z0 : (n * price = 0)%Z \/ (1 <= n /\ 1 <= price)%Z) by nia. destruct Z0 as [Z0|[U1 P1]].
  - left. rewrite Z0, Z.mul_0_r, Z.div_0_l by nia. transitivity (Ztrunc 0); [|apply (Ztrunc_IZR 0)]. apply trunc_stands. apply zero_mul; [|lia]. apply zero_div; [|lia].
    assert (n = 0 \/ price = 0)%Z as [->| ->] by nia.
    + eapply zero_mul_l. apply div_stands; [apply of_Z_exact; lia|apply of_Z_exact; lia|apply not_0_IZR; lia|]. apply small_fits. apply small_bpow with 53%Z; [lia|]. apply Rabs_quotient; lia.
    + replace 0 with (rnd (IZR n * 0)) by (rewrite Rmult_0_r; apply rnd_0). apply mul_stands; [apply of_Z_exact; lia| |rewrite Rmult_0_r, rnd_0, Rabs_R0; apply bpow_gt_0].
      apply zero_div; [apply (of_Z_exact 0); lia|lia].
  - assert (Up : 1 <= IZR n) by (apply IZR_le; lia). assert (Lp : 1 <= IZR lot) by (apply IZR_le; lia). assert (Dp : 1 <= IZR den) by (apply IZR_le; lia).
    assert (W1 : within (div double (of_Z double price) (of_Z double den)) (IZR price / IZR den) 1).
    { apply within_div; [apply within_of_Z; lia|lia|lia|]. apply (sane_quotient price den 53 53); lia. }
    assert (W2 : within (mul double (of_Z double n) (div double (of_Z double price) (of_Z double den))) (IZR (n * price) / IZR den) 2).
    { replace (IZR (n * price) / IZR den) with (IZR n * (IZR price / IZR den)) by (rewrite mult_IZR; field; lra). apply within_mul_l; [exact W1|lia|lia|].
      replace (IZR n * (IZR price / IZR den)) with (IZR (n * price) / IZR den) by (rewrite mult_IZR; field; lra). apply (sane_quotient (n * price) den 53 53); nia. }
    assert (W3 : within (div double (mul double (of_Z double n) (div double (of_Z double price) (of_Z double den))) (of_Z double lot)) (IZR (n * price) / IZR den / IZR lot) 3).
    { apply within_div; [exact W2|lia|lia|]. replace (IZR (n * price) / IZR den / IZR lot) with (IZR (n * price) / IZR (den * lot)) by (rewrite !mult_IZR; field; lra).
      apply (sane_quotient (n * price) (den * lot) 53 106); nia. }
    assert (W4 : within (mul double (div double (mul double (of_Z double n) (div double (of_Z double price) (of_Z double den))) (of_Z double lot)) (of_Z double 100)) (IZR (100 * (n * price)) / IZR (den * lot)) 4).
    { replace (IZR (100 * (n * price)) / IZR (den * lot)) with (IZR (n * price) / IZR den / IZR lot * IZR 100) by (rewrite !mult_IZR; field; lra). apply within_mul; [exact W3|lia|lia|].
      replace (IZR (n * price) / IZR den / IZR lot * IZR 100) with (IZR (100 * (n * price)) / IZR (den * lot)) by (rewrite !mult_IZR; field; lra). apply (sane_quotient (100 * (n * price)) (den * lot) 53 106); nia. }
    apply within_trunc in W4; [|nia|nia]. destruct W4 as [E|[M E]]; [left; exact E|right]. split; [exact M|]. split; [nia|exact E].
Qed.

(** Truncation of a double is that of the number it stands for. *)
Lemma trunc_number u v : is_double u -> number u = Some v -> trunc_Z double u = trunc_Z exact v.
Proof.
  intros V N. change (trunc_Z double u) with (double_trunc u). rewrite (trunc_stands _ _ (number_stands u v V N)). pose proof (whole_real _ _ (trunc_whole v)) as [[A [B C]]|[A [B C]]].
  - rewrite Ztrunc_floor by exact A. apply Zfloor_imp. rewrite plus_IZR. split; assumption.
  - rewrite Ztrunc_ceil by exact A. apply Zceil_imp. rewrite minus_IZR. split; assumption.
Qed.
Lemma abs_stands u v : is_double u -> number u = Some v -> stands (SFabs u) (Rabs (Q2R v)).
Proof.
  intros V N. replace (Rabs (Q2R v)) with (Q2R (Qabs v)).
  - apply number_stands; destruct u as [s|s| |s m e]; try discriminate N; try exact V; cbn in *; injection N as <-; f_equal.
    unfold Qabs, Qmult. destruct s; cbn; destruct (Qpower 2 e) as [a b] eqn:E; cbn; f_equal; destruct a; cbn; try reflexivity; exfalso.
    all: assert (H : (0 < Qpower 2 e)%Q) by (apply Qpower_0_lt; reflexivity); rewrite E in H; unfold Qlt in H; cbn in H; lia.
  - destruct (Qlt_le_dec v 0) as [L|L].
    + rewrite (Qeq_eqR _ _ (Qabs_neg v (Qlt_le_weak _ _ L))), Q2R_opp. apply Qlt_Rlt in L. rewrite RMicromega.Q2R_0 in L. rewrite Rabs_left by exact L. reflexivity.
    + rewrite (Qeq_eqR _ _ (Qabs_pos v L)). apply Qle_Rle in L. rewrite RMicromega.Q2R_0 in L. rewrite Rabs_pos_eq by exact L. reflexivity.
Qed.
Lemma forall2_perm {A B} (R : A -> B -> Prop) l l' : Permutation l l' -> forall m, Forall2 R l m -> exists m', Permutation m m' /\ Forall2 R l' m'.
Proof.
  induction 1 as [|x l l' P IH|x y l|l l' l'' P1 IH1 P2 IH2]; intros m F.
  - inversion F. exists []. split; constructor.
  - inversion F as [|? b ? m0 R0 F0]; subst. destruct (IH _ F0) as (m' & Q & F'). exists (b :: m'). split; constructor; assumption.
  - inversion F as [|? b ? m0 R0 F0]; subst. inversion F0 as [|? c ? m1 R1 F1]; subst. exists (c :: b :: m1). split; [apply perm_swap|]. repeat constructor; assumption.
  - destruct (IH1 _ F) as (m' & Q & F'). destruct (IH2 _ F') as (m'' & Q' & F''). exists m''. split; [exact (Permutation_trans Q Q')|exact F''].
Qed.
Definition rsum (l : list R) : R := fold_right Rplus 0 l.
Definition abs_sum (l : list Q) : R := rsum (map (fun v => Rabs (Q2R v)) l).
Lemma abs_sum_nonneg l : 0 <= abs_sum l.
Proof. unfold abs_sum, rsum. induction l as [|v l IH]; cbn [map fold_right]; [lra|]. pose proof (Rabs_pos (Q2R v)). lra. Qed.
(** Sums of absolute values: each addition adds at most an eighth to the error. *)
Lemma sum_error us vs : Forall2 (fun u v => is_double u /\ number u = Some v) us vs -> forall s a A j, stands s a -> Rabs (a - A) <= IZR j / 8 -> (0 <= j)%Z -> (j + Z.of_nat (length us) <= 2 ^ 48)%Z ->
  0 <= A -> A + abs_sum vs <= bpow radix2 48 -> exists b, stands (fold_left (fun s u => add double s (SFabs u)) us s) b /\ Rabs (b - (A + abs_sum vs)) <= IZR (j + Z.of_nat (length us)) / 8.
Proof.
  induction 1 as [|u v us vs [V N] F IH]; intros s a A j Ss E J Hj A0 B.
  - exists a. split; [exact Ss|]. unfold abs_sum, rsum. cbn [map fold_right length]. rewrite Rplus_0_r, Z.add_0_r. exact E.
  - cbn [fold_left]. unfold abs_sum, rsum in *. cbn [map fold_right] in *. fold (rsum (map (fun v => Rabs (Q2R v)) vs)) in *. fold (abs_sum vs) in *. cbn [length] in *. rewrite Nat2Z.inj_succ in *.
    pose proof (abs_sum_nonneg vs) as P. pose proof (Rabs_pos (Q2R v)) as P'. set (r := Rabs (Q2R v)) in *. pose proof (rnd_any (a + r)) as R1.
    assert (Ij : 0 <= IZR j <= bpow radix2 48) by (split; [apply IZR_le; lia|]; change (bpow radix2 48) with (IZR (2 ^ 48)); apply IZR_le; lia).
    assert (Ea : Rabs (a + r) <= bpow radix2 48 + IZR j / 8).
    { replace (a + r) with ((a - A) + (A + r)) by ring. eapply Rle_trans; [apply Rabs_triang|]. rewrite (Rabs_pos_eq (A + r)) by lra. lra. }
    assert (Ee : eps * Rabs (a + r) <= / 16).
    { apply Rle_trans with (eps * (bpow radix2 48 + bpow radix2 48 / 8)); [apply Rmult_le_compat_l; [left; apply bpow_gt_0|]; lra|].
      assert (M : eps * bpow radix2 48 = / 32) by (rewrite <- bpow_plus; reflexivity). replace (eps * (bpow radix2 48 + bpow radix2 48 / 8)) with (eps * bpow radix2 48 * (9 / 8)) by field. rewrite M. lra. }
    assert (St : stands (add double s (SFabs u)) (rnd (a + r))).
    { apply add_stands; [exact Ss|now apply abs_stands|]. apply small_fits. apply Rle_trans with (1 := Ea). apply Rle_trans with (bpow radix2 49); [|apply bpow_le; lia]. change 49%Z with (48 + 1)%Z. rewrite bpow_plus. change (bpow radix2 1) with 2. lra. }
    destruct (IH _ (rnd (a + r)) (A + r) (j + 1)%Z St) as (b & Sb & Eb).
    + replace (rnd (a + r) - (A + r)) with ((rnd (a + r) - (a + r)) + (a - A)) by ring. eapply Rle_trans; [apply Rabs_triang|]. rewrite plus_IZR. lra.
    + lia.
    + lia.
    + lra.
    + lra.
    + exists b. split; [exact Sb|]. replace (A + (r + abs_sum vs)) with (A + r + abs_sum vs) by ring. replace (j + Z.succ (Z.of_nat (length us)))%Z with (j + 1 + Z.of_nat (length us))%Z by lia. exact Eb.
Qed.
Lemma abs_sum_q l : Q2R (qsum (map Qabs l)) = abs_sum l.
Proof.
  unfold abs_sum, rsum, qsum. induction l as [|v l IH]; cbn [map fold_right]; [apply RMicromega.Q2R_0|]. rewrite Q2R_plus, IH. f_equal. clear. destruct (Qlt_le_dec v 0) as [L|L].
  - rewrite (Qeq_eqR _ _ (Qabs_neg v (Qlt_le_weak _ _ L))), Q2R_opp. apply Qlt_Rlt in L. rewrite RMicromega.Q2R_0 in L. rewrite Rabs_left by exact L. reflexivity.
  - rewrite (Qeq_eqR _ _ (Qabs_pos v L)). apply Qle_Rle in L. rewrite RMicromega.Q2R_0 in L. rewrite Rabs_pos_eq by exact L. reflexivity.
Qed.
(** The sum in double precision, truncated. *)
Lemma volume_double us vs lo hi : Forall2 (fun u v => is_double u /\ number u = Some v) us vs -> (Z.of_nat (length us) <= 2 ^ 48)%Z -> (qsum (map Qabs vs) <= inject_Z (2 ^ 48))%Q ->
  (inject_Z lo <= qsum (map Qabs vs) <= inject_Z hi)%Q -> let n := Z.of_nat (length us) in
  (1 <= n)%Z -> (lo - n <= trunc_Z double (fold_left (fun s u => add double s (SFabs u)) us (of_Z double 0)) <= hi + n)%Z.
Proof.
  intros F L B [Lo Hi] n N1. apply Qle_Rle in B, Lo, Hi. rewrite !abs_sum_q, !Q2R_inject in *.
  destruct (sum_error us vs F (of_Z double 0) 0 0 0) as (b & Sb & Eb).
  - apply (of_Z_exact 0). lia.
  - rewrite Rminus_0_r, Rabs_R0. lra.
  - lia.
  - lia.
  - lra.
  - rewrite Rplus_0_l. exact B.
  - rewrite Rplus_0_l, Z.add_0_l in Eb. fold n in Eb. change (trunc_Z double) with double_trunc. rewrite (trunc_stands _ _ Sb). pose proof (Rabs_le_inv _ _ Eb) as Ib.
    assert (In1 : 1 <= IZR n) by (apply IZR_le; lia). set (t := Ztrunc b).
    assert (T : IZR t - 1 < b < IZR t + 1).
    { unfold t. destruct (Rle_or_lt 0 b) as [H|H].
      - rewrite Ztrunc_floor by exact H. pose proof (Zfloor_lb b). pose proof (Zfloor_ub b). lra.
      - rewrite Ztrunc_ceil by lra. pose proof (Zceil_lb b). pose proof (Zceil_ub b). lra. }
    split.
    + assert (lo - n < t + 1)%Z; [|lia]. apply lt_IZR. rewrite minus_IZR, plus_IZR. lra.
    + assert (t < hi + n + 1)%Z; [|lia]. apply lt_IZR. rewrite !plus_IZR. 
      assert (b <= IZR hi + IZR n / 8) by lra. assert (P := abs_sum_nonneg vs).
      destruct (Rle_or_lt 0 b) as [H0|H0]; [assert (IZR t <= b) by (unfold t; rewrite Ztrunc_floor by exact H0; apply Zfloor_lb); lra|].
      assert (IZR t <= 0). { unfold t. rewrite Ztrunc_ceil by lra. apply IZR_le. apply Zceil_glb. lra. } lra.
Qed.
