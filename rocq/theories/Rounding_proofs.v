(** Amounts of money computed in double precision: the relative error of a chain of multiplications and divisions by integers, and what
    truncation makes of it. *)
From Coq Require Import SpecFloat Reals Psatz.
From Flocq Require Import Core IEEE754.BinarySingleNaN.
From Verif Require Import Base Identity StaticTicks Double_proofs Prices_proofs Quantity Walras Company.
From Coq Require Import ZifyBool.
Local Open Scope R_scope.
Local Notation eps := (bpow radix2 (-53)).

(** [x] stands for a positive number that differs from [r] by at most [k] roundings. *)
Definition within (x : spec_float) (r : R) (k : nat) : Prop :=
  exists y, stands x y /\ r * (1 - eps) ^ k <= y <= r * (1 + eps) ^ k.

Lemma within_of_Z z : (Z.abs z <= 2 ^ 53)%Z -> within (of_Z double z) (IZR z) 0.
Proof. intros H. exists (IZR z). split; [now apply of_Z_exact|]. cbn [pow]. lra. Qed.

Lemma low_pow k : (k <= 8)%nat -> / 2 <= (1 - eps) ^ k.
Proof.
  intros H. pose proof eps_pos. pose proof eps_small. apply Rle_trans with ((1 - eps) ^ 8).
  - apply Rle_trans with ((1 - / 16) ^ 8); [cbn [pow]; lra|]. apply pow_incr. lra.
  - replace 8%nat with (k + (8 - k))%nat by lia. rewrite pow_add. rewrite <- (Rmult_1_r ((1 - eps) ^ k)) at 2.
    apply Rmult_le_compat_l; [apply pow_le; lra|]. pose proof (pow_incr (1 - eps) 1 (8 - k) ltac:(lra)) as P. rewrite pow1 in P. exact P.
Qed.
Lemma high_pow k : (k <= 8)%nat -> (1 + eps) ^ k <= 2.
Proof.
  intros H. pose proof eps_pos. pose proof eps_small. apply Rle_trans with ((1 + eps) ^ 8).
  - apply Rle_pow; [lra|exact H].
  - apply Rle_trans with ((1 + / 16) ^ 8); [apply pow_incr; lra|cbn [pow]; lra].
Qed.

Definition sane (r : R) : Prop := bpow radix2 (-500) <= r <= bpow radix2 500.

Lemma within_step x r k y : stands x (rnd y) -> (k <= 7)%nat -> r * (1 - eps) ^ k <= y <= r * (1 + eps) ^ k -> sane r -> within x r (S k).
Proof.
  intros Sx Hk [L U] [R1 R2]. exists (rnd y). split; [exact Sx|]. pose proof (bpow_gt_0 radix2 (-500)). pose proof eps_pos. pose proof eps_small.
  assert (B : bpow radix2 (-1022) <= y).
  { apply Rle_trans with (bpow radix2 (-501)); [apply bpow_le; lia|]. change (-501)%Z with (-500 + -1)%Z. rewrite bpow_plus. change (bpow radix2 (-1)) with (/ 2).
    apply Rle_trans with (2 := L). apply Rmult_le_compat; try lra. apply low_pow. lia. }
  pose proof (rnd_pos_error y B) as E. cbn [pow]. split.
  - replace (r * ((1 - eps) * (1 - eps) ^ k)) with (r * (1 - eps) ^ k * (1 - eps)) by ring. apply Rle_trans with (y * (1 - eps)); [|apply E]. apply Rmult_le_compat_r; lra.
  - replace (r * ((1 + eps) * (1 + eps) ^ k)) with (r * (1 + eps) ^ k * (1 + eps)) by ring. apply Rle_trans with (y * (1 + eps)); [apply E|]. apply Rmult_le_compat_r; lra.
Qed.
Lemma sane_fits r k y : (k <= 7)%nat -> sane r -> r * (1 - eps) ^ k <= y <= r * (1 + eps) ^ k -> Rabs (rnd y) < biggest.
Proof.
  intros Hk [R1 R2] [L U]. pose proof (bpow_gt_0 radix2 (-500)). pose proof eps_small. apply small_fits.
  assert (0 <= y). { apply Rle_trans with (2 := L). apply Rmult_le_pos; [lra|]. apply pow_le. lra. }
  rewrite Rabs_pos_eq by assumption. apply Rle_trans with (1 := U). apply Rle_trans with (bpow radix2 501); [|apply bpow_le; lia].
  change 501%Z with (500 + 1)%Z. rewrite bpow_plus. change (bpow radix2 1) with 2. pose proof (high_pow k ltac:(lia)). apply Rmult_le_compat; try lra. apply pow_le. pose proof eps_pos. lra.
Qed.

Lemma within_mul x z r k : within x r k -> (k <= 7)%nat -> (1 <= z <= 2 ^ 53)%Z -> sane (r * IZR z) -> within (mul double x (of_Z double z)) (r * IZR z) (S k).
Proof.
  intros (y & Sx & L & U) Hk Hz S. assert (1 <= IZR z) by (apply IZR_le; lia).
  assert (B : r * IZR z * (1 - eps) ^ k <= y * IZR z <= r * IZR z * (1 + eps) ^ k).
  { replace (r * IZR z * (1 - eps) ^ k) with (r * (1 - eps) ^ k * IZR z) by ring. replace (r * IZR z * (1 + eps) ^ k) with (r * (1 + eps) ^ k * IZR z) by ring.
    split; apply Rmult_le_compat_r; lra. }
  apply within_step with (y * IZR z); auto. apply mul_stands; [exact Sx|apply of_Z_exact; lia|]. apply (sane_fits (r * IZR z) k); auto.
Qed.
Lemma within_mul_l x z r k : within x r k -> (k <= 7)%nat -> (1 <= z <= 2 ^ 53)%Z -> sane (IZR z * r) -> within (mul double (of_Z double z) x) (IZR z * r) (S k).
Proof.
  intros (y & Sx & L & U) Hk Hz S. assert (1 <= IZR z) by (apply IZR_le; lia).
  assert (B : IZR z * r * (1 - eps) ^ k <= IZR z * y <= IZR z * r * (1 + eps) ^ k).
  { replace (IZR z * r * (1 - eps) ^ k) with (IZR z * (r * (1 - eps) ^ k)) by ring. replace (IZR z * r * (1 + eps) ^ k) with (IZR z * (r * (1 + eps) ^ k)) by ring.
    split; apply Rmult_le_compat_l; lra. }
  apply within_step with (IZR z * y); auto. apply mul_stands; [apply of_Z_exact; lia|exact Sx|]. apply (sane_fits (IZR z * r) k); auto.
Qed.
Lemma within_div x z r k : within x r k -> (k <= 7)%nat -> (1 <= z <= 2 ^ 53)%Z -> sane (r / IZR z) -> within (div double x (of_Z double z)) (r / IZR z) (S k).
Proof.
  intros (y & Sx & L & U) Hk Hz S. assert (1 <= IZR z) by (apply IZR_le; lia). assert (0 < / IZR z) by (apply Rinv_0_lt_compat; lra).
  assert (B : r / IZR z * (1 - eps) ^ k <= y / IZR z <= r / IZR z * (1 + eps) ^ k).
  { replace (r / IZR z * (1 - eps) ^ k) with (r * (1 - eps) ^ k / IZR z) by (unfold Rdiv; ring). replace (r / IZR z * (1 + eps) ^ k) with (r * (1 + eps) ^ k / IZR z) by (unfold Rdiv; ring).
    split; apply Rmult_le_compat_r; lra. }
  apply within_step with (y / IZR z); auto. apply div_stands; [exact Sx|apply of_Z_exact; lia|lra|]. apply (sane_fits (r / IZR z) k); auto.
Qed.

(** Quotients of positive integers of moderate size are neither too small nor too large. *)
Lemma sane_quotient n d a b : (0 <= a <= 500)%Z -> (0 <= b <= 500)%Z -> (1 <= n <= 2 ^ a)%Z -> (1 <= d <= 2 ^ b)%Z -> sane (IZR n / IZR d).
Proof.
  intros Ha Hb Hn Hd. assert (Dp : 1 <= IZR d) by (apply IZR_le; lia). assert (Np : 1 <= IZR n) by (apply IZR_le; lia). split.
  - apply Rmult_le_reg_r with (IZR d); [lra|]. unfold Rdiv. rewrite Rmult_assoc, Rinv_l, Rmult_1_r by lra. apply Rle_trans with 1; [|lra].
    assert (E : bpow radix2 (-500) * bpow radix2 500 = 1) by (rewrite <- bpow_plus; reflexivity). rewrite <- E. apply Rmult_le_compat_l; [apply bpow_ge_0|].
    apply Rle_trans with (bpow radix2 b); [|apply bpow_le; lia]. rewrite <- (IZR_Zpower radix2 b) by lia. apply IZR_le. apply Hd.
  - apply Rle_trans with (IZR n * 1). { unfold Rdiv. apply Rmult_le_compat_l; [lra|]. rewrite <- Rinv_1. apply Rinv_le; lra. }
    rewrite Rmult_1_r. apply Rle_trans with (bpow radix2 a); [|apply bpow_le; lia]. rewrite <- (IZR_Zpower radix2 a) by lia. apply IZR_le. apply Hn.
Qed.

(** Truncation: the quotient of integers is hit, or missed by one from below if there is no remainder. *)
Lemma within_trunc x n d : (1 <= n < 2 ^ 50)%Z -> (1 <= d)%Z -> within x (IZR n / IZR d) 4 ->
  double_trunc x = (n / d)%Z \/ (n mod d = 0 /\ double_trunc x = n / d - 1)%Z.
Proof.
  intros Hn Hd (y & Sx & L & U). rewrite (trunc_stands x y Sx). pose proof eps_pos as E0. assert (Dp : 1 <= IZR d) by (apply IZR_le; lia). assert (Np : 1 <= IZR n) by (apply IZR_le; lia).
  assert (E8 : IZR n * eps < / 8).
  { apply Rlt_le_trans with (IZR (2 ^ 50) * eps). { apply Rmult_lt_compat_r; [exact E0|]. apply IZR_lt. lia. }
    change (2 ^ 50)%Z with (radix2 ^ 50)%Z. rewrite (IZR_Zpower radix2 50) by lia. rewrite <- bpow_plus. change (bpow radix2 (50 + -53)) with (/ 8). lra. }
  assert (Es : eps <= / 16) by apply eps_small.
  assert (P1 : 1 - 4 * eps <= (1 - eps) ^ 4) by (cbn [pow]; nra). assert (P2 : (1 + eps) ^ 4 <= 1 + 5 * eps).
  { cbn [pow]. assert (eps * eps <= eps * / 16) by (apply Rmult_le_compat_l; lra). assert (0 <= eps * eps) by (apply Rmult_le_pos; lra). nra. }
  set (q := (n / d)%Z). assert (Hq : (n = d * q + n mod d)%Z) by (unfold q; apply Z.div_mod; lia). pose proof (Z.mod_pos_bound n d ltac:(lia)) as Hm.
  assert (Q0 : (0 <= q)%Z) by (unfold q; apply Z.div_pos; lia). remember (n mod d)%Z as m eqn:Em. clear Em.
  assert (L' : IZR n - / 2 <= y * IZR d). { apply Rmult_le_compat_r with (r := IZR d) in L; [|lra]. replace (IZR n / IZR d * (1 - eps) ^ 4 * IZR d) with (IZR n * (1 - eps) ^ 4) in L by (field; lra).
    apply Rle_trans with (2 := L). apply Rle_trans with (IZR n * (1 - 4 * eps)); [lra|]. apply Rmult_le_compat_l; lra. }
  assert (U' : y * IZR d < IZR n + 1). { apply Rmult_le_compat_r with (r := IZR d) in U; [|lra]. replace (IZR n / IZR d * (1 + eps) ^ 4 * IZR d) with (IZR n * (1 + eps) ^ 4) in U by (field; lra).
    apply Rle_lt_trans with (1 := U). apply Rle_lt_trans with (IZR n * (1 + 5 * eps)); [|lra]. apply Rmult_le_compat_l; lra. }
  assert (Y0 : 0 <= y). { apply Rle_trans with (2 := L). apply Rmult_le_pos; [apply Rmult_le_pos; [lra|]; left; apply Rinv_0_lt_compat; lra|]. apply pow_le. lra. }
  rewrite Ztrunc_floor by exact Y0.
  assert (Hi : y < IZR (q + 1)).
  { apply Rmult_lt_reg_r with (IZR d); [lra|]. apply Rlt_le_trans with (1 := U'). rewrite <- mult_IZR, <- plus_IZR. apply IZR_le. lia. }
  destruct (Rle_or_lt (IZR q) y) as [Q|Q].
  - left. apply Zfloor_imp. split; [exact Q|exact Hi].
  - right. assert (M : (m = 0)%Z).
    { destruct (Z.eq_dec m 0) as [->|Hne]; [reflexivity|]. exfalso. assert (IZR q * IZR d <= IZR n - 1) by (rewrite <- mult_IZR, <- minus_IZR; apply IZR_le; lia).
      apply Rmult_lt_compat_r with (r := IZR d) in Q; lra. }
    split; [exact M|]. apply Zfloor_imp. replace (q - 1 + 1)%Z with q by lia. split; [|exact Q]. rewrite minus_IZR. apply Rmult_le_reg_r with (IZR d); [lra|]. rewrite Rmult_minus_distr_r.
    assert (IZR n = IZR q * IZR d) by (rewrite <- mult_IZR; f_equal; lia). lra.
Qed.

(** ** The amount due for units at a price for a lot, and the share of a class of shares in a profit. *)
Lemma zero_mul x z : stands x 0 -> (Z.abs z <= 2 ^ 53)%Z -> stands (mul double x (of_Z double z)) 0.
Proof. intros Sx Hz. replace 0 with (rnd (0 * IZR z)) by (rewrite Rmult_0_l; apply rnd_0). apply mul_stands; [exact Sx|apply of_Z_exact; lia|]. rewrite Rmult_0_l, rnd_0, Rabs_R0. apply bpow_gt_0. Qed.
Lemma zero_div x z : stands x 0 -> (1 <= z <= 2 ^ 53)%Z -> stands (div double x (of_Z double z)) 0.
Proof.
  intros Sx Hz. replace 0 with (rnd (0 / IZR z)) by (unfold Rdiv; rewrite Rmult_0_l; apply rnd_0). apply div_stands; [exact Sx|apply of_Z_exact; lia|apply IZR_neq; lia|].
  unfold Rdiv. rewrite Rmult_0_l, rnd_0, Rabs_R0. apply bpow_gt_0.
Qed.
Lemma zero_mul_l x r : stands x r -> stands (mul double (of_Z double 0) x) 0.
Proof. intros Sx. replace 0 with (rnd (IZR 0 * r)) by (rewrite Rmult_0_l; apply rnd_0). apply mul_stands; [apply of_Z_exact; lia|exact Sx|]. rewrite Rmult_0_l, rnd_0, Rabs_R0. apply bpow_gt_0. Qed.

Lemma cash_double units price lot : (0 <= units <= 2 ^ 53)%Z -> (0 <= price <= 2 ^ 53)%Z -> (units * price < 2 ^ 50)%Z -> (1 <= lot <= 2 ^ 53)%Z ->
  cash double units price lot = (units * price / lot)%Z \/ ((units * price) mod lot = 0 /\ 0 < units * price /\ cash double units price lot = units * price / lot - 1)%Z.
Proof.
  intros Hu Hp Hup Hl. unfold cash. change (trunc_Z double) with double_trunc.
  assert (Z0 : (units * price = 0)%Z \/ (1 <= units /\ 1 <= price)%Z) by nia. destruct Z0 as [Z0|[U1 P1]].
  - left. rewrite Z0, Z.div_0_l by lia. transitivity (Ztrunc 0); [|apply (Ztrunc_IZR 0)]. apply trunc_stands. apply zero_mul; [|lia]. apply zero_div; [|lia].
    assert (units = 0 \/ price = 0)%Z as [->| ->] by nia.
    + eapply zero_mul_l. apply div_stands; [apply of_Z_exact; lia|apply of_Z_exact; lia|lra|]. apply small_fits. apply small_bpow with 53%Z; [lia|]. apply Rabs_quotient; lia.
    + replace 0 with (rnd (IZR units * 0)) by (rewrite Rmult_0_r; apply rnd_0). apply mul_stands; [apply of_Z_exact; lia| |rewrite Rmult_0_r, rnd_0, Rabs_R0; apply bpow_gt_0].
      apply zero_div; [apply (of_Z_exact 0); lia|lia].
  - assert (Up : 1 <= IZR units) by (apply IZR_le; lia). assert (Lp : 1 <= IZR lot) by (apply IZR_le; lia).
    assert (W1 : within (div double (of_Z double price) (of_Z double 100)) (IZR price / IZR 100) 1).
    { apply within_div; [apply within_of_Z; lia|lia|lia|]. apply (sane_quotient price 100 53 53); lia. }
    assert (W2 : within (mul double (of_Z double units) (div double (of_Z double price) (of_Z double 100))) (IZR (units * price) / IZR 100) 2).
    { replace (IZR (units * price) / IZR 100) with (IZR units * (IZR price / IZR 100)) by (rewrite mult_IZR; field). apply within_mul_l; [exact W1|lia|lia|].
      replace (IZR units * (IZR price / IZR 100)) with (IZR (units * price) / IZR 100) by (rewrite mult_IZR; field). apply (sane_quotient (units * price) 100 53 53); nia. }
    assert (W3 : within (div double (mul double (of_Z double units) (div double (of_Z double price) (of_Z double 100))) (of_Z double lot)) (IZR (units * price) / IZR 100 / IZR lot) 3).
    { apply within_div; [exact W2|lia|lia|]. replace (IZR (units * price) / IZR 100 / IZR lot) with (IZR (units * price) / IZR (100 * lot)) by (rewrite !mult_IZR; field; lra).
      apply (sane_quotient (units * price) (100 * lot) 53 63); nia. }
    assert (W4 : within (mul double (div double (mul double (of_Z double units) (div double (of_Z double price) (of_Z double 100))) (of_Z double lot)) (of_Z double 100)) (IZR (units * price) / IZR lot) 4).
    { replace (IZR (units * price) / IZR lot) with (IZR (units * price) / IZR 100 / IZR lot * IZR 100) by (field; lra). apply within_mul; [exact W3|lia|lia|].
      replace (IZR (units * price) / IZR 100 / IZR lot * IZR 100) with (IZR (units * price) / IZR lot) by (field; lra). apply (sane_quotient (units * price) lot 53 53); nia. }
    apply within_trunc in W4; [|nia|lia]. destruct W4 as [E|[M E]]; [left; exact E|right]. split; [exact M|]. split; [nia|exact E].
Qed.

Lemma class_amount_double denominator profit total shares : (1 <= denominator <= 2 ^ 53)%Z -> (1 <= profit <= 2 ^ 53)%Z -> (1 <= total <= 2 ^ 53)%Z -> (0 <= shares <= total)%Z -> (profit * shares < 2 ^ 50)%Z ->
  let a := double_trunc (mul double (mul double (div double (div double (of_Z double profit) (of_Z double denominator)) (of_Z double total)) (of_Z double shares)) (of_Z double denominator)) in
  a = (profit * shares / total)%Z \/ ((profit * shares) mod total = 0 /\ 0 < shares /\ a = profit * shares / total - 1)%Z.
Proof.
  intros Hd Hp Ht Hs Hps a. assert (Dp : 1 <= IZR denominator) by (apply IZR_le; lia). assert (Tp : 1 <= IZR total) by (apply IZR_le; lia).
  assert (W1 : within (div double (of_Z double profit) (of_Z double denominator)) (IZR profit / IZR denominator) 1).
  { apply within_div; [apply within_of_Z; lia|lia|lia|]. apply (sane_quotient profit denominator 53 53); lia. }
  assert (W2 : within (div double (div double (of_Z double profit) (of_Z double denominator)) (of_Z double total)) (IZR profit / IZR denominator / IZR total) 2).
  { apply within_div; [exact W1|lia|lia|]. replace (IZR profit / IZR denominator / IZR total) with (IZR profit / IZR (denominator * total)) by (rewrite mult_IZR; field; lra).
    apply (sane_quotient profit (denominator * total) 53 106); [lia|lia|lia|]. change (2 ^ 106)%Z with (2 ^ 53 * 2 ^ 53)%Z. split; [nia|]. apply Z.mul_le_mono_nonneg; lia. }
  assert (shares = 0 \/ 1 <= shares)%Z as [->|S1] by lia.
  - left. rewrite Z.mul_0_r, Z.div_0_l by lia. unfold a. transitivity (Ztrunc 0); [|apply (Ztrunc_IZR 0)]. apply trunc_stands. apply zero_mul; [|lia]. destruct W2 as (y & Sy & _).
    replace 0 with (rnd (y * 0)) by (rewrite Rmult_0_r; apply rnd_0). apply mul_stands; [exact Sy|apply (of_Z_exact 0); lia|]. rewrite Rmult_0_r, rnd_0, Rabs_R0. apply bpow_gt_0.
  - assert (E3 : IZR profit / IZR denominator / IZR total * IZR shares = IZR (profit * shares) / IZR (denominator * total)) by (rewrite !mult_IZR; field; lra).
    assert (W3 : within (mul double (div double (div double (of_Z double profit) (of_Z double denominator)) (of_Z double total)) (of_Z double shares)) (IZR profit / IZR denominator / IZR total * IZR shares) 3).
    { apply within_mul; [exact W2|lia|lia|]. rewrite E3. apply (sane_quotient (profit * shares) (denominator * total) 53 106); [lia|lia|nia|].
      change (2 ^ 106)%Z with (2 ^ 53 * 2 ^ 53)%Z. split; [nia|]. apply Z.mul_le_mono_nonneg; lia. }
    assert (E4 : IZR profit / IZR denominator / IZR total * IZR shares * IZR denominator = IZR (profit * shares) / IZR total) by (rewrite !mult_IZR; field; lra).
    assert (W4 : within (mul double (mul double (div double (div double (of_Z double profit) (of_Z double denominator)) (of_Z double total)) (of_Z double shares)) (of_Z double denominator))
      (IZR (profit * shares) / IZR total) 4).
    { rewrite <- E4. apply within_mul; [exact W3|lia|lia|]. rewrite E4. apply (sane_quotient (profit * shares) total 53 53); nia. }
    apply within_trunc in W4; [|nia|lia]. fold a in W4. destruct W4 as [E|[M E]]; [left; exact E|right]. auto with zarith.
Qed.

(** ** Signs. *)
Definition nonneg (x : spec_float) : Prop := match x with S754_finite s _ _ => s = false | _ => True end.
Lemma round_aux_nonneg mx ex lx : nonneg (SpecFloat.binary_round_aux 53 1024 false mx ex lx).
Proof.
  unfold SpecFloat.binary_round_aux, nonneg. destruct (shr_fexp _ _ _ _ _) as [mrs e]. destruct (shr_fexp _ _ _ _ _) as [mrs' e']. destruct (shr_m mrs'); auto.
  destruct (e' <=? 1024 - 53)%Z; auto.
Qed.
Lemma of_Z_nonneg z : (0 <= z)%Z -> nonneg (of_Z double z).
Proof.
  intros H. cbn [of_Z double]. destruct z as [|p|p]; [exact I| |lia]. cbn [SpecFloat.binary_normalize]. unfold SpecFloat.binary_round.
  destruct (shl_align p 0 _) as [m e]. apply round_aux_nonneg.
Qed.
Lemma mul_nonneg x y : nonneg x -> nonneg y -> nonneg (mul double x y).
Proof. cbn [mul double]. destruct x, y; cbn [nonneg SFmul]; auto. intros -> ->. apply round_aux_nonneg. Qed.
Lemma div_nonneg x y : nonneg x -> nonneg y -> nonneg (div double x y).
Proof.
  cbn [div double]. destruct x, y; cbn [nonneg SFdiv]; auto. intros -> ->. destruct (SFdiv_core_binary _ _ _ _ _ _) as [[mz ez] lz]. apply round_aux_nonneg.
Qed.
Lemma trunc_nonneg x : nonneg x -> (0 <= double_trunc x)%Z.
Proof.
  destruct x as [| | |s m e]; cbn [nonneg double_trunc]; try lia. intros ->. destruct (Z.leb_spec 0 e); [apply Z.mul_nonneg_nonneg; [lia|apply Z.pow_nonneg; lia]|].
  apply Z.div_pos; [lia|]. apply Z.pow_pos_nonneg; lia.
Qed.
Lemma cash_nonneg units price lot : (0 <= units)%Z -> (0 <= price)%Z -> (0 <= lot)%Z -> (0 <= cash double units price lot)%Z.
Proof. intros Hu Hp Hl. unfold cash. apply trunc_nonneg. repeat first [apply mul_nonneg|apply div_nonneg|apply of_Z_nonneg]; lia. Qed.
