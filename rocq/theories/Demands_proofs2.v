(** Units in double precision. *)
From Coq Require Import SpecFloat QArith Qpower Qreals Reals Psatz.
From Flocq Require Import Core IEEE754.BinarySingleNaN.
From Verif Require Import Base Identity StaticTicks Double_proofs Prices_proofs Rounding_proofs Demands Demands_spec Demands_proofs.
From Coq Require Import ZifyBool.
Local Open Scope R_scope.
Local Notation eps := (bpow radix2 (-53)).

Lemma Q2R_inject z : Q2R (inject_Z z) = IZR z.
Proof. unfold Q2R. cbn. lra. Qed.
Lemma Q2R_power_pos p : Q2R (Qpower_positive 2 p) = bpow radix2 (Z.pos p).
Proof.
  transitivity (Q2R (inject_Z (2 ^ Z.pos p))); [|rewrite Q2R_inject; reflexivity]. apply Qeq_eqR. symmetry. apply (Zpower_Qpower 2 (Z.pos p)). easy.
Qed.
Lemma Q2R_power e : Q2R (Qpower 2 e) = bpow radix2 e.
Proof.
  destruct e as [|p|p]; [unfold Q2R; cbn; lra|apply Q2R_power_pos|].
  change (Qpower 2 (Z.neg p)) with (/ Qpower_positive 2 p)%Q. rewrite Q2R_inv by (apply Qpower_not_0_positive; easy). rewrite Q2R_power_pos. symmetry. apply (bpow_opp radix2 (Z.pos p)).
Qed.
Lemma number_stands x q : is_double x -> number x = Some q -> stands x (Q2R q).
Proof.
  intros V N. destruct x as [s|s| |s m e]; try discriminate N.
  - cbn in N. injection N as <-. exists (B754_zero s). split; [reflexivity|]. split; [reflexivity|]. cbn. now rewrite RMicromega.Q2R_0.
  - cbn in N. injection N as <-. exists (B754_finite s m e V). split; [reflexivity|]. split; [reflexivity|]. cbn [B2R]. rewrite Q2R_mult, Q2R_inject, Q2R_power. unfold F2R. cbn [Fnum Fexp]. now destruct s.
Qed.

Lemma within_mul_stands x r k y s : within x r k -> (k <= 7)%nat -> stands y s -> 0 < s -> sane (r * s) -> within (mul double x y) (r * s) (S k).
Proof.
  intros (z & Sx & L & U) Hk Sy Hs S.
  assert (B : r * s * (1 - eps) ^ k <= z * s <= r * s * (1 + eps) ^ k).
  { replace (r * s * (1 - eps) ^ k) with (r * (1 - eps) ^ k * s) by ring. replace (r * s * (1 + eps) ^ k) with (r * (1 + eps) ^ k * s) by ring. split; apply Rmult_le_compat_r; lra. }
  apply within_step with (z * s); auto. apply mul_stands; [exact Sx|exact Sy|]. apply (sane_fits (r * s) k); auto.
Qed.
(** The error of a rounding, also for small numbers. *)
Lemma rnd_any a : Rabs (rnd a - a) <= eps * Rabs a + / 16.
Proof.
  pose proof eps_pos. pose proof (Rabs_pos a). destruct (Rle_or_lt (bpow radix2 (-1000)) (Rabs a)) as [H1|H1].
  - pose proof (rnd_error a (Rle_trans _ _ _ (bpow_le radix2 (-1022) (-1000) ltac:(lia)) H1)). lra.
  - pose proof (rnd_bound a (-1000) ltac:(lia) ltac:(lra)) as B. assert (bpow radix2 (-1000) <= / 32) by (change (/ 32) with (bpow radix2 (-5)); apply bpow_le; lia).
    apply Rle_trans with (Rabs (rnd a) + Rabs a); [apply Rabs_triang_inv2_alt || (unfold Rminus; eapply Rle_trans; [apply Rabs_triang|]; rewrite Rabs_Ropp; lra)|].
    assert (0 <= eps * Rabs a) by (apply Rmult_le_pos; lra). lra.
Qed.
(** A division by a number that is known up to three roundings. *)
Lemma quotient_error y p e : 0 < p -> p * (1 - eps) ^ 3 <= y <= p * (1 + eps) ^ 3 -> Rabs (e / p) <= bpow radix2 48 -> Rabs (rnd (e / y) - e / p) < / 2.
Proof.
  intros Hp [L U] B. pose proof eps_pos as E0. pose proof eps_small as E1. set (r := e / p) in *.
  assert (P1 : 1 - 4 * eps <= (1 - eps) ^ 3) by (cbn [pow]; nra). assert (P2 : (1 + eps) ^ 3 <= 1 + 4 * eps) by (cbn [pow]; nra).
  assert (Ly : p * (1 - 4 * eps) <= y) by (apply Rle_trans with (2 := L); apply Rmult_le_compat_l; lra).
  assert (Uy : y <= p * (1 + 4 * eps)) by (apply Rle_trans with (1 := U); apply Rmult_le_compat_l; lra).
  assert (Hy : p / 2 <= y) by nra. assert (Y0 : 0 < y) by lra.
  assert (D : e / y - r = r * ((p - y) / y)) by (unfold r; field; lra).
  assert (C : Rabs ((p - y) / y) <= 8 * eps).
  { unfold Rdiv. rewrite Rabs_mult, (Rabs_pos_eq (/ y)) by (left; now apply Rinv_0_lt_compat). apply Rmult_le_reg_r with y; [exact Y0|]. rewrite Rmult_assoc, Rinv_l, Rmult_1_r by lra.
    apply Rabs_le. split; nra. }
  assert (M : Rabs r * eps <= / 32).
  { replace (/ 32) with (bpow radix2 48 * eps) by (rewrite <- bpow_plus; reflexivity). apply Rmult_le_compat_r; lra. }
  assert (D1 : Rabs (e / y - r) <= / 4).
  { rewrite D, Rabs_mult. apply Rle_trans with (Rabs r * (8 * eps)); [apply Rmult_le_compat_l; [apply Rabs_pos|exact C]|]. lra. }
  pose proof (rnd_any (e / y)) as R1. assert (D2 : Rabs (e / y) <= Rabs r + / 4).
  { replace (e / y) with (r + (e / y - r)) by ring. eapply Rle_trans; [apply Rabs_triang|]. lra. }
  assert (D3 : eps * Rabs (e / y) <= / 16). { apply Rle_trans with (eps * (Rabs r + / 4)); [apply Rmult_le_compat_l; lra|]. assert (eps <= / 32) by (change (/ 32) with (bpow radix2 (-5)); apply bpow_le; lia). lra. }
  replace (rnd (e / y) - r) with ((rnd (e / y) - e / y) + (e / y - r)) by ring. eapply Rle_lt_trans; [apply Rabs_triang|]. lra.
Qed.
Lemma trunc_close (a b : R) z : Rabs (a - b) < / 2 -> (0 <= b /\ IZR z <= b < IZR z + 1 \/ b <= 0 /\ IZR z - 1 < b <= IZR z) -> (Z.abs (Ztrunc a - z) <= 1)%Z.
Proof.
  intros C W. apply Rabs_def2 in C. assert (T : 0 <= a /\ IZR (Ztrunc a) <= a < IZR (Ztrunc a) + 1 \/ a <= 0 /\ IZR (Ztrunc a) - 1 < a <= IZR (Ztrunc a)).
  { destruct (Rle_or_lt 0 a) as [H|H].
    - left. split; [exact H|]. rewrite Ztrunc_floor by exact H. split; [apply Zfloor_lb|apply Zfloor_ub].
    - right. split; [lra|]. rewrite Ztrunc_ceil by lra. pose proof (Zceil_ub a). pose proof (Zceil_lb a). split; lra. }
  assert (G : forall m n : Z, IZR m < IZR n + 2 -> (m <= n + 1)%Z). { intros m n H. assert (m < n + 2)%Z; [|lia]. apply lt_IZR. rewrite plus_IZR. exact H. }
  assert (X : (Ztrunc a <= z + 1)%Z /\ (z <= Ztrunc a + 1)%Z).
  { split; apply G; destruct T as [[T1 T2]|[T1 T2]], W as [[W1 W2]|[W1 W2]]; try lra. }
  lia.
Qed.
Lemma whole_real z q : whole z q -> (0 <= Q2R q /\ IZR z <= Q2R q < IZR z + 1 \/ Q2R q <= 0 /\ IZR z - 1 < Q2R q <= IZR z).
Proof.
  assert (O : Q2R 1 = 1) by (unfold Q2R; cbn; lra).
  intros [(A & B & C)|(A & B & C)]; [left|right]; apply Qle_Rle in A; rewrite RMicromega.Q2R_0 in A; (split; [exact A|]).
  - apply Qle_Rle in B. apply Qlt_Rlt in C. rewrite Q2R_plus, Q2R_inject, O in C. rewrite Q2R_inject in B. now split.
  - apply Qlt_Rlt in B. apply Qle_Rle in C. rewrite Q2R_minus, Q2R_inject, O in B. rewrite Q2R_inject in C. now split.
Qed.
Lemma units_double q x e xq eq : (1 <= q_value q <= 2 ^ 53)%Z -> (1 <= q_denominator q <= 2 ^ 53)%Z -> (1 <= q_lot q <= 2 ^ 53)%Z ->
  is_double x -> number x = Some xq -> (1 # 16 <= xq <= 16)%Q -> is_double e -> number e = Some eq ->
  (Qabs.Qabs (units exact q xq eq) <= inject_Z (2 ^ 48))%Q ->
  (Z.abs (trunc_Z double (units double q x e) - trunc_Z exact (units exact q xq eq)) <= 1)%Z.
Proof.
  intros Hv Hd Hl Vx Nx [X1 X2] Ve Ne B. pose proof (number_stands x xq Vx Nx) as Sx. pose proof (number_stands e eq Ve Ne) as Se. pose proof (whole_real _ _ (trunc_whole (units exact q xq eq))) as W.
  assert (Rx : / 16 <= Q2R xq <= 16).
  { apply Qle_Rle in X1. apply Qle_Rle in X2. unfold Q2R at 1 in X1. unfold Q2R at 2 in X2. cbn in X1, X2. lra. }
  remember (Q2R xq) as s. set (V := IZR (q_value q)) in *. set (D := IZR (q_denominator q)) in *. set (L := IZR (q_lot q)) in *.
  assert (V1 : 1 <= V) by (apply IZR_le; lia). assert (D1 : 1 <= D) by (apply IZR_le; lia). assert (L1 : 1 <= L) by (apply IZR_le; lia).
  assert (P0 : sane (V / D)) by (apply (sane_quotient (q_value q) (q_denominator q) 53 53); lia).
  assert (P1 : sane (V / D / L)).
  { replace (V / D / L) with (IZR (q_value q) / IZR (q_denominator q * q_lot q)) by (rewrite mult_IZR; fold V D L; field; lra). apply (sane_quotient _ _ 53 106); try lia. split; [nia|]. change (2 ^ 106)%Z with (2 ^ 53 * 2 ^ 53)%Z. nia. }
  assert (T1 : within (div double (of_Z double (q_value q)) (of_Z double (q_denominator q))) (V / D) 1) by (apply within_div; [apply within_of_Z; lia|lia|lia|exact P0]).
  assert (T2 : within (div double (div double (of_Z double (q_value q)) (of_Z double (q_denominator q))) (of_Z double (q_lot q))) (V / D / L) 2) by (apply within_div; [exact T1|lia|lia|exact P1]).
  assert (P2 : sane (V / D / L * s)).
  { assert (Q1 : IZR (q_value q) / IZR (q_denominator q * q_lot q * 16) <= V / D / L * s <= IZR (q_value q * 16) / IZR (q_denominator q * q_lot q)).
    { rewrite !mult_IZR. fold V D L. assert (0 < V / D / L) by (apply Rdiv_lt_0_compat; [apply Rdiv_lt_0_compat|]; lra).
      replace (V / (D * L * 16)) with (V / D / L * / 16) by (field; lra). replace (V * 16 / (D * L)) with (V / D / L * 16) by (field; lra). split; apply Rmult_le_compat_l; lra. }
    split.
    - apply Rle_trans with (2 := proj1 Q1). apply (sane_quotient _ _ 53 110); try lia. split; [nia|]. change (2 ^ 110)%Z with (2 ^ 53 * 2 ^ 53 * 16)%Z. nia.
    - apply Rle_trans with (1 := proj2 Q1). apply (sane_quotient _ _ 57 106); try lia. split; [nia|]. change (2 ^ 106)%Z with (2 ^ 53 * 2 ^ 53)%Z. nia. }
  assert (T3 : within (unit_price double q x) (V / D / L * s) 3) by (apply within_mul_stands; [exact T2|lia|exact Sx|lra|exact P2]).
  destruct T3 as (y & Sy & Ly & Uy). set (p := V / D / L * s) in *. assert (Hp : 0 < p). { destruct P2 as [P2 _]. apply Rlt_le_trans with (2 := P2). apply bpow_gt_0. }
  assert (Er : Q2R (units exact q xq eq) = Q2R eq / p).
  { unfold units, unit_price. cbn [div mul of_Z exact]. 
    assert (N : forall z, (1 <= z)%Z -> ~ (inject_Z z == 0)%Q) by (intros z Hz E; apply Qeq_eqR in E; rewrite Q2R_inject, RMicromega.Q2R_0 in E; apply (eq_IZR z 0) in E; lia).
    assert (F : Q2R (inject_Z (q_value q) / inject_Z (q_denominator q) / inject_Z (q_lot q) * xq) = p) by (rewrite Q2R_mult, !Q2R_div by (apply N; lia); rewrite !Q2R_inject; unfold p; now rewrite Heqs).
    rewrite Q2R_div; [now rewrite F|]. intros E. apply Qeq_eqR in E. rewrite F, RMicromega.Q2R_0 in E. lra. }
  assert (Rb : Rabs (Q2R eq / p) <= bpow radix2 48).
  { rewrite <- Er. apply Qabs.Qabs_Qle_condition in B. destruct B as [B1 B2]. apply Qle_Rle in B1. apply Qle_Rle in B2. rewrite Q2R_opp in B1. rewrite Q2R_inject in B1, B2. apply Rabs_le. split; [exact B1|exact B2]. }
  pose proof (quotient_error y p (Q2R eq) Hp (conj Ly Uy) Rb) as C.
  assert (Y0 : 0 < y). { apply Rlt_le_trans with (2 := Ly). apply Rmult_lt_0_compat; [exact Hp|]. apply pow_lt. pose proof eps_small. lra. }
  assert (St : stands (units double q x e) (rnd (Q2R eq / y))).
  { unfold units. apply div_stands; [exact Se|exact Sy|lra|]. apply Rlt_trans with (bpow radix2 49); [|apply bpow_lt; lia].
    replace (rnd (Q2R eq / y)) with (Q2R eq / p + (rnd (Q2R eq / y) - Q2R eq / p)) by ring. eapply Rle_lt_trans; [apply Rabs_triang|]. change 49%Z with (48 + 1)%Z. rewrite bpow_plus. change (bpow radix2 1) with 2.
    assert (1 <= bpow radix2 48) by (change 1 with (bpow radix2 0); apply bpow_le; lia). lra. }
  cbn [trunc_Z double]. change (double_trunc (units double q x e)) with (double_trunc (units double q x e)). rewrite (trunc_stands _ _ St). apply (trunc_close _ _ _ C). rewrite Er in W. exact W.
Qed.
