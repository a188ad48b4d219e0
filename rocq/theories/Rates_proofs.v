From Coq Require Import SpecFloat Reals Psatz.
From Flocq Require Import Core IEEE754.BinarySingleNaN.
From Verif Require Import Base Identity Money Money_spec Money_proofs StaticTicks Double_proofs Prices Prices_proofs Rates Rates_spec.
From Coq Require Import ZifyBool.
Local Open Scope Z_scope.

Lemma new_rate_spec b n d : 0 < d -> exists r, new_rate b n d = Value r /\ worth r n d /\ reduced r.
Proof.
  intros D. unfold new_rate. replace (0 <? d) with true by lia. rewrite Bool.andb_false_r. replace (d =? 0) with false by lia.
  destruct (n =? 0) eqn:N.
  - exists (0, 1). split; [reflexivity|]. unfold worth, reduced. cbn. lia.
  - assert (G : 0 < Z.gcd n d). { pose proof (Z.gcd_nonneg n d). destruct (Z.eq_dec (Z.gcd n d) 0) as [E|E]; [apply Z.gcd_eq_0_r in E; lia|lia]. }
    destruct (Z.gcd_divide_l n d) as [x X], (Z.gcd_divide_r n d) as [y Y].
    assert (EX : n / Z.gcd n d = x) by (rewrite X at 1; apply Z.div_mul; lia).
    assert (EY : d / Z.gcd n d = y) by (rewrite Y at 1; apply Z.div_mul; lia).
    assert (Py : 0 < y) by nia. rewrite EX, EY. replace (0 <? y) with true by lia. exists (x, y). split; [reflexivity|]. split.
    + split; [exact Py|]. cbn [fst snd]. rewrite Y at 1. rewrite X at 2. ring.
    + split; [exact Py|]. cbn [fst snd]. rewrite <- EX, <- EY. apply Z.gcd_div_gcd; [lia|reflexivity].
Qed.
Lemma new_rate_negative n d : d < 0 -> - 2 ^ 63 < d -> - 2 ^ 63 < n -> exists r, new_rate false n d = Value r /\ worth r n d /\ reduced r.
Proof.
  intros D D' N'. unfold new_rate. cbn [andb]. replace (d =? 0) with false by lia.
  destruct (n =? 0) eqn:N.
  - exists (0, 1). split; [reflexivity|]. unfold worth, reduced. cbn. lia.
  - assert (G : 0 < Z.gcd n d). { pose proof (Z.gcd_nonneg n d). destruct (Z.eq_dec (Z.gcd n d) 0) as [E|E]; [apply Z.gcd_eq_0_r in E; lia|lia]. }
    destruct (Z.gcd_divide_l n d) as [x X], (Z.gcd_divide_r n d) as [y Y].
    assert (EX : n / Z.gcd n d = x) by (rewrite X at 1; apply Z.div_mul; lia).
    assert (EY : d / Z.gcd n d = y) by (rewrite Y at 1; apply Z.div_mul; lia).
    assert (Py : y < 0) by nia. assert (Ly : - 2 ^ 63 < y) by nia. assert (Lx : - 2 ^ 63 < x) by nia.
    rewrite EX, EY. replace (0 <? y) with false by lia. replace (y =? - 2 ^ 63) with false by lia. replace (x =? - 2 ^ 63) with false by lia.
    exists (- x, - y). split; [reflexivity|]. split.
    + split; [cbn [snd]; lia|]. cbn [fst snd]. rewrite Y at 1. rewrite X at 2. ring.
    + split; [cbn [snd]; lia|]. cbn [fst snd]. rewrite Z.gcd_opp_l, Z.gcd_opp_r, <- EX, <- EY. apply Z.gcd_div_gcd; [lia|reflexivity].
Qed.
Lemma worth_reduced_eq r s a b : 0 < b -> worth r a b -> worth s a b -> reduced r -> reduced s -> r = s.
Proof.
  destruct r as [n d], s as [n' d']. unfold worth, reduced. cbn [fst snd]. intros B [D H] [D' H'] [_ G] [_ G'].
  assert (C : n * d' = n' * d) by nia.
  assert (X : (d | d')). { apply (Z.gauss d n d'); [exists n'; lia|]. now rewrite Z.gcd_comm. }
  assert (Y : (d' | d)). { apply (Z.gauss d' n' d); [exists n; lia|]. now rewrite Z.gcd_comm. }
  assert (d = d') by (apply Z.divide_antisym_nonneg; [lia|lia|exact X|exact Y]). subst d'. f_equal. nia.
Qed.

Local Open Scope R_scope.
Lemma to_u64_stands x r : stands x r -> (0 <= Ztrunc r < W64)%Z -> to_u64 x = Ret (Ztrunc r).
Proof.
  intros S H. rewrite <- (trunc_stands x r S) in *. destruct S as (b & <- & F & _).
  destruct b as [s|s| |s m e B]; try discriminate F; [reflexivity|]. cbn [B2SF] in H |- *. unfold to_u64.
  set (z := double_trunc (S754_finite s m e)) in *. replace ((0 <=? z) && (z <? W64))%Z%bool with true by lia. reflexivity.
Qed.
Lemma decimal_stands k p : (Z.abs k <= 2 ^ 53)%Z -> (1 <= p <= 2 ^ 53)%Z -> stands (decimal k p) (rnd (IZR k / IZR p)).
Proof.
  intros K P. apply div_stands; [apply of_Z_exact; lia|apply of_Z_exact; lia|apply IZR_neq; lia|].
  apply small_fits. apply small_bpow with 53%Z; [lia|]. apply Rabs_quotient; lia.
Qed.
Lemma scaled_stands x r p : stands x r -> Rabs r <= bpow radix2 100 -> (1 <= p <= 2 ^ 53)%Z -> stands (mul double x (of_Z double p)) (rnd (r * IZR p)).
Proof.
  intros S B P. apply mul_stands; [exact S|apply of_Z_exact; lia|]. apply small_fits. apply small_bpow with 153%Z; [lia|].
  rewrite Rabs_mult. change 153%Z with (100 + 53)%Z. rewrite bpow_plus. apply Rmult_le_compat; [apply Rabs_pos|apply Rabs_pos|exact B|]. apply IZR_bound; lia.
Qed.
Lemma decimal_bound k p : (Z.abs k <= 2 ^ 53)%Z -> (1 <= p)%Z -> Rabs (rnd (IZR k / IZR p)) <= bpow radix2 100.
Proof. intros K P. apply Rle_trans with (bpow radix2 53); [|apply bpow_le; lia]. apply rnd_bound; [lia|]. now apply Rabs_quotient. Qed.
Lemma s64_pos p : (1 <= p <= 2 ^ 53)%Z -> s64 p = p.
Proof. intros P. unfold s64. rewrite Z.mod_small by (unfold W64; lia). replace (p <? 2 ^ 63)%Z with true by lia. reflexivity. Qed.

Lemma rate_decimal b k p : (Z.abs k < 2 ^ 52)%Z -> (1 <= p <= 2 ^ 53)%Z ->
  exists r, rate_of_double b (decimal k p) p = Value r /\ reduced r /\ (worth r k p \/ worth r (k - Z.sgn k) p).
Proof.
  intros K P. pose proof (roundtrip k p K P) as R. cbv zeta in R. set (w := Ztrunc (rnd (rnd (IZR k / IZR p) * IZR p))) in *.
  assert (S : stands (mul double (decimal k p) (of_Z double p)) (rnd (rnd (IZR k / IZR p) * IZR p))).
  { apply scaled_stands; [apply decimal_stands; lia|apply decimal_bound; lia|exact P]. }
  unfold rate_of_double. rewrite (to_i64_stands _ _ S) by (fold w; unfold i64; lia). fold w. rewrite (s64_pos p P).
  destruct (new_rate_spec b w p ltac:(lia)) as (r & E & W & D). exists r. split; [exact E|]. split; [exact D|]. destruct R as [R|R]; rewrite R in W; [now left|now right].
Qed.
Lemma rate_binary b v k : (Z.abs v <= 2 ^ 53)%Z -> (0 <= k <= 53)%Z ->
  exists r, rate_of_double b (decimal v (2 ^ k)) (2 ^ k) = Value r /\ reduced r /\ worth r v (2 ^ k).
Proof.
  intros Hv Hk. assert (P : (1 <= 2 ^ k <= 2 ^ 53)%Z).
  { split; [pose proof (Z.pow_pos_nonneg 2 k ltac:(lia) ltac:(lia)); lia|apply Z.pow_le_mono_r; lia]. }
  assert (D : IZR (2 ^ k) = bpow radix2 k).
  { change (2 ^ k)%Z with (radix2 ^ k)%Z. apply IZR_Zpower. lia. }
  assert (X : rnd (IZR v / IZR (2 ^ k)) = IZR v * bpow radix2 (- k)).
  { rewrite D. unfold Rdiv. rewrite <- bpow_opp. apply rnd_exact; lia. }
  assert (Y : rnd (rnd (IZR v / IZR (2 ^ k)) * IZR (2 ^ k)) = IZR v).
  { rewrite X, D, Rmult_assoc, <- bpow_plus. replace (- k + k)%Z with 0%Z by lia. rewrite Rmult_1_r. apply rnd_IZR. exact Hv. }
  assert (S : stands (mul double (decimal v (2 ^ k)) (of_Z double (2 ^ k))) (IZR v)).
  { rewrite <- Y. apply scaled_stands; [apply decimal_stands; lia|apply decimal_bound; lia|exact P]. }
  unfold rate_of_double. rewrite (to_i64_stands _ _ S) by (rewrite Ztrunc_IZR; unfold i64; lia). rewrite Ztrunc_IZR, (s64_pos _ P).
  destruct (new_rate_spec b v (2 ^ k) ltac:(lia)) as (r & E & W & R). now exists r.
Qed.
Lemma trunc_error y : Rabs (IZR (Ztrunc y) - y) < 1 /\ Rabs (IZR (Ztrunc y)) <= Rabs y.
Proof.
  destruct (Rle_or_lt 0 y) as [L|L].
  - rewrite Ztrunc_floor by exact L. pose proof (Zfloor_lb y). pose proof (Zfloor_ub y). assert (0 <= IZR (Zfloor y)) by (apply IZR_le; apply Zfloor_lub; exact L).
    split; [apply Rabs_def1; lra|]. rewrite !Rabs_pos_eq by lra. lra.
  - rewrite Ztrunc_ceil by lra. pose proof (Zceil_ub y). pose proof (Zceil_lb y). assert (IZR (Zceil y) <= 0) by (apply IZR_le; apply Zceil_glb; lra).
    split; [apply Rabs_def1; lra|]. rewrite (Rabs_left1 _ H1), (Rabs_left1 y) by lra. lra.
Qed.
Lemma rate_error b x r p : stands x r -> (1 <= p <= 2 ^ 53)%Z -> Rabs (r * IZR p) <= bpow radix2 62 ->
  exists q, rate_of_double b x p = Value q /\ (0 < snd q)%Z /\ Rabs (IZR (fst q) / IZR (snd q) - r) < / IZR p + bpow radix2 (-53) * Rabs r.
Proof.
  intros S P B. assert (P1 : 1 <= IZR p) by (apply IZR_le; lia).
  assert (Br : Rabs r <= bpow radix2 100).
  { apply Rle_trans with (bpow radix2 62); [|apply bpow_le; lia]. apply Rle_trans with (Rabs (r * IZR p)); [|exact B].
    rewrite Rabs_mult, (Rabs_pos_eq (IZR p)) by lra. pose proof (Rabs_pos r). nra. }
  pose proof (scaled_stands x r p S Br P) as M. set (y := rnd (r * IZR p)) in *.
  assert (By : Rabs y <= bpow radix2 62) by (apply rnd_bound; [lia|exact B]).
  destruct (trunc_error y) as [T1 T2].
  assert (I : i64 (Ztrunc y)).
  { assert (A : Rabs (IZR (Ztrunc y)) <= IZR (2 ^ 62)) by (change (2 ^ 62)%Z with (radix2 ^ 62)%Z; rewrite (IZR_Zpower radix2 62) by lia; lra).
    rewrite <- abs_IZR in A. apply le_IZR in A. unfold i64. lia. }
  unfold rate_of_double. rewrite (to_i64_stands _ _ M I), (s64_pos p P).
  destruct (new_rate_spec b (Ztrunc y) p ltac:(lia)) as (q & E & [W1 W2] & _). exists q. split; [exact E|]. split; [exact W1|].
  assert (Q1 : 1 <= IZR (snd q)) by (apply IZR_le; lia).
  assert (V : IZR (fst q) / IZR (snd q) = IZR (Ztrunc y) / IZR p).
  { apply (f_equal IZR) in W2. rewrite !mult_IZR in W2. apply Rmult_eq_reg_r with (IZR (snd q) * IZR p); [|nra].
    unfold Rdiv. replace (IZR (fst q) * / IZR (snd q) * (IZR (snd q) * IZR p)) with (IZR (fst q) * IZR p) by (field; lra).
    rewrite W2. field. lra. }
  rewrite V. replace (IZR (Ztrunc y) / IZR p - r) with ((IZR (Ztrunc y) - r * IZR p) / IZR p) by (field; lra).
  unfold Rdiv. rewrite Rabs_mult, Rabs_inv, (Rabs_pos_eq (IZR p)) by lra.
  assert (G : Rabs (IZR (Ztrunc y) - r * IZR p) < 1 + bpow radix2 (-53) * Rabs (r * IZR p)).
  { destruct (Rle_or_lt (bpow radix2 (-1022)) (Rabs (r * IZR p))) as [L|L].
    - pose proof (rnd_error _ L) as R. fold y in R. replace (IZR (Ztrunc y) - r * IZR p) with ((IZR (Ztrunc y) - y) + (y - r * IZR p)) by ring.
      apply Rle_lt_trans with (1 := Rabs_triang _ _). lra.
    - assert (Z : Ztrunc y = 0%Z).
      { assert (Y : Rabs y < 1). { apply Rle_lt_trans with (bpow radix2 (-1)); [apply rnd_bound; [lia|]; apply Rlt_le, Rlt_le_trans with (1 := L); apply bpow_le; lia|]. change (bpow radix2 (-1)) with (/ 2). lra. }
        assert (Rabs (IZR (Ztrunc y)) < 1) by lra. rewrite <- abs_IZR in H. apply lt_IZR in H. lia. }
      rewrite Z. replace (0 - r * IZR p) with (- (r * IZR p)) by ring. rewrite Rabs_Ropp. pose proof (bpow_ge_0 radix2 (-53)). pose proof (Rabs_pos (r * IZR p)).
      assert (bpow radix2 (-1022) < 1) by (change 1 with (bpow radix2 0); apply bpow_lt; lia). nra. }
  rewrite Rabs_mult, (Rabs_pos_eq (IZR p)) in G by lra.
  apply Rmult_lt_reg_r with (IZR p); [lra|]. replace (Rabs (IZR (Ztrunc y) - r * IZR p) * / IZR p * IZR p) with (Rabs (IZR (Ztrunc y) - r * IZR p)) by (field; lra).
  replace ((/ IZR p + bpow radix2 (-53) * Rabs r) * IZR p) with (1 + bpow radix2 (-53) * (Rabs r * IZR p)) by (field; lra). exact G.
Qed.
