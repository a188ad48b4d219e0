(** The price levels of the fixed-tick book in double precision. *)
From Coq Require Import SpecFloat Reals Psatz.
From Flocq Require Import Core IEEE754.BinarySingleNaN.
From Verif Require Import Base StaticTicks Double_proofs Prices_proofs Rounding_proofs.
From Coq Require Import ZifyBool.
Local Open Scope R_scope.
Local Notation eps := (bpow radix2 (-53)).

(** ** Orders of magnitude. *)
Definition ranged (r : R) (a b : Z) : Prop := bpow radix2 a <= r <= bpow radix2 b.
Lemma ranged_mul r q a b a' b' : ranged r a b -> ranged q a' b' -> ranged (r * q) (a + a') (b + b').
Proof. intros [A B] [A' B']. pose proof (bpow_gt_0 radix2 a). pose proof (bpow_gt_0 radix2 a'). split; rewrite bpow_plus; apply Rmult_le_compat; lra. Qed.
Lemma ranged_inv r a b : ranged r a b -> ranged (/ r) (- b) (- a).
Proof.
  intros [A B]. pose proof (bpow_gt_0 radix2 a). split; rewrite bpow_opp; apply Rinv_le; lra.
Qed.
Lemma ranged_div r q a b a' b' : ranged r a b -> ranged q a' b' -> ranged (r / q) (a - b') (b - a').
Proof. intros A B. apply (ranged_mul r (/ q) a b (- b') (- a')); [exact A|]. now apply ranged_inv. Qed.
Lemma ranged_IZR z n : (0 <= n)%Z -> (1 <= z <= 2 ^ n)%Z -> ranged (IZR z) 0 n.
Proof. intros Hn Hz. split; [change (bpow radix2 0) with 1; apply IZR_le; lia|]. rewrite <- (IZR_Zpower radix2 n Hn). apply IZR_le. apply Hz. Qed.
Lemma ranged_sane r a b : ranged r a b -> (-500 <= a)%Z -> (b <= 500)%Z -> sane r.
Proof. intros [A B] Ha Hb. split; [apply Rle_trans with (2 := A)|apply Rle_trans with (1 := B)]; apply bpow_le; assumption. Qed.
Lemma ranged_weak r a b a' b' : ranged r a b -> (a' <= a)%Z -> (b <= b')%Z -> ranged r a' b'.
Proof. intros [A B] Ha Hb. split; [apply Rle_trans with (2 := A)|apply Rle_trans with (1 := B)]; apply bpow_le; assumption. Qed.
Lemma ranged_pos r a b : ranged r a b -> 0 < r.
Proof. intros [A _]. pose proof (bpow_gt_0 radix2 a). lra. Qed.

Lemma within_stands x y : stands x y -> within x y 0.
Proof. intros Sx. exists y. split; [exact Sx|]. cbn [pow]. lra. Qed.
(** At most five roundings, as a bound on the difference. *)
Lemma within_abs x r k : within x r k -> (k <= 5)%nat -> 0 <= r -> exists y, stands x y /\ Rabs (y - r) <= 6 * eps * r.
Proof.
  intros (y & Sx & L & U) Hk Hr. exists y. split; [exact Sx|]. pose proof eps_pos as E0. pose proof eps_small as E1.
  assert (P1 : 1 - 6 * eps <= (1 - eps) ^ k).
  { apply Rle_trans with ((1 - eps) ^ 5).
    - assert (H : 0 <= eps * eps) by (apply Rmult_le_pos; lra). assert (H1 : eps * eps <= eps * / 16) by (apply Rmult_le_compat_l; lra). cbn [pow]. nra.
    - replace 5%nat with (k + (5 - k))%nat by lia. rewrite pow_add. rewrite <- (Rmult_1_r ((1 - eps) ^ k)) at 2.
      apply Rmult_le_compat_l; [apply pow_le; lra|]. pose proof (pow_incr (1 - eps) 1 (5 - k) ltac:(lra)) as P. rewrite pow1 in P. exact P. }
  assert (P2 : (1 + eps) ^ k <= 1 + 6 * eps).
  { apply Rle_trans with ((1 + eps) ^ 5); [apply Rle_pow; [lra|lia]|].
    assert (E2 : eps <= / 1024) by (change (/ 1024) with (bpow radix2 (-10)); apply bpow_le; lia).
    assert (H : 0 <= eps * eps) by (apply Rmult_le_pos; lra). assert (H1 : eps * eps <= eps * / 1024) by (apply Rmult_le_compat_l; lra).
    assert (H2 : eps * eps * eps <= eps * / 1024) by nra. assert (H3 : eps * eps * eps * eps <= eps * / 1024) by nra. assert (H4 : eps * eps * eps * eps * eps <= eps * / 1024) by nra.
    cbn [pow]. nra. }
  assert (r * (1 - 6 * eps) <= y) by (apply Rle_trans with (2 := L); apply Rmult_le_compat_l; lra).
  assert (y <= r * (1 + 6 * eps)) by (apply Rle_trans with (1 := U); apply Rmult_le_compat_l; lra).
  apply Rabs_le. lra.
Qed.

(** Rounding to an integer, halves away from zero. *)
Lemma double_round_stands x y : stands x y -> 0 <= y -> double_round x = Zfloor (y + / 2).
Proof.
  intros (b & <- & F & <-) H. destruct b as [s|s| |s m e B]; try discriminate F; cbn [B2SF double_round B2R] in *.
  - symmetry. apply Zfloor_imp. change (IZR (0 + 1)) with 1. lra.
  - destruct s.
    + exfalso. change (cond_Zopp true (Z.pos m)) with (Z.neg m) in H. assert (F2R (Float radix2 (Z.neg m) e) < 0) by (apply F2R_lt_0; reflexivity). lra.
    + change (cond_Zopp false (Z.pos m)) with (Z.pos m) in *. destruct (Z.leb_spec 0 e) as [He|He].
      * symmetry. apply Zfloor_imp. unfold F2R. cbn [Fnum Fexp]. rewrite <- (IZR_Zpower radix2 e He), <- mult_IZR. change (radix_val radix2) with 2%Z. rewrite plus_IZR. lra.
      * unfold F2R. cbn [Fnum Fexp].
        assert (P : (0 < 2 ^ (- e - 1))%Z) by (apply Z.pow_pos_nonneg; lia).
        assert (E2 : (2 ^ (- e) = 2 * 2 ^ (- e - 1))%Z) by (rewrite <- Z.pow_succ_r by lia; f_equal; lia).
        replace (IZR (Z.pos m) * bpow radix2 e + / 2) with (IZR (Z.pos m + 2 ^ (- e - 1)) / IZR (2 ^ (- e))).
        { rewrite Zfloor_div by lia. reflexivity. }
        rewrite plus_IZR, E2, mult_IZR.
        assert (B2 : bpow radix2 e = / (2 * IZR (2 ^ (- e - 1)))).
        { rewrite <- mult_IZR, <- E2. change (2 ^ (- e))%Z with (radix2 ^ (- e))%Z. rewrite (IZR_Zpower radix2 (- e)) by lia. rewrite bpow_opp, Rinv_inv. reflexivity. }
        rewrite B2. field. apply IZR_neq. lia.
Qed.
Lemma floor_near y (k : Z) : IZR k - 1 <= y < IZR k + 1 -> Zfloor y = k \/ Zfloor y = (k - 1)%Z.
Proof.
  intros [A B]. destruct (Rle_or_lt (IZR k) y) as [L|L]; [left|right]; apply Zfloor_imp; rewrite ?plus_IZR, ?minus_IZR; lra.
Qed.

Section Book.
Context (d m l h : Z) (Hd : (1 <= d)%Z) (Hm : (2 <= m)%Z) (HT : (m * d <= 2 ^ 53)%Z) (Hl : (0 <= l < h)%Z) (Hmh : (m * h <= 2 ^ 40)%Z).
Let T := (m * d)%Z.
Let s := / (IZR d * IZR T).
Local Lemma Td : (1 <= T <= 2 ^ 53)%Z. Proof. unfold T. nia. Qed.
Local Lemma d53 : (1 <= d <= 2 ^ 53)%Z. Proof. nia. Qed.
Local Lemma h40 : (1 <= h <= 2 ^ 39)%Z. Proof. nia. Qed.
Local Lemma s_ranged : ranged s (-106) 0.
Proof. unfold s. apply (ranged_inv _ 0 106). apply (ranged_mul _ _ 0 53 0 53); apply ranged_IZR; [lia|apply d53|lia|apply Td]. Qed.
Local Lemma s_pos : 0 < s. Proof. apply (ranged_pos _ _ _ s_ranged). Qed.
Local Lemma dp : 1 <= IZR d. Proof. apply IZR_le. apply Hd. Qed.
Local Lemma Tp : 1 <= IZR T. Proof. apply IZR_le. apply Td. Qed.
Local Lemma mp : 2 <= IZR m. Proof. apply IZR_le. apply Hm. Qed.
(** The scale of a level. *)
Local Lemma sTT : s * IZR T * IZR T = IZR m.
Proof. unfold s, T. rewrite mult_IZR. pose proof dp. pose proof mp. field. lra. Qed.
Local Lemma mh_eps : IZR m * IZR h * eps <= / 8192.
Proof.
  rewrite <- mult_IZR. apply Rle_trans with (IZR (2 ^ 40) * eps). { apply Rmult_le_compat_r; [left; apply eps_pos|]. now apply IZR_le. }
  change (2 ^ 40)%Z with (radix2 ^ 40)%Z. rewrite (IZR_Zpower radix2 40) by lia. rewrite <- bpow_plus. change (bpow radix2 (40 + -53)) with (/ 8192). lra.
Qed.

Local Lemma real_near v : (0 <= v <= h)%Z -> exists y, stands (real double d T v) y /\ Rabs (y - IZR v * s) <= 3 * eps * (IZR v * s).
Proof.
  intros Hv. pose proof dp. pose proof Tp. pose proof h40. assert (v = 0 \/ 1 <= v)%Z as [->|V1] by lia.
  - exists 0. split; [|rewrite Rmult_0_l, Rminus_0_r, Rabs_R0; lra]. apply zero_div; [|apply Td]. apply zero_div; [apply (of_Z_exact 0); lia|apply d53].
  - assert (W : within (real double d T v) (IZR v / IZR d / IZR T) 2).
    { assert (R1 : ranged (IZR v / IZR d) (0 - 53) (53 - 0)) by (apply ranged_div; apply ranged_IZR; try apply d53; lia).
      assert (R2 : ranged (IZR v / IZR d / IZR T) (0 - 53 - 53) (53 - 0 - 0)) by (apply ranged_div; [exact R1|apply ranged_IZR; [lia|apply Td]]).
      apply within_div; [|lia|apply Td|apply (ranged_sane _ _ _ R2); lia]. apply within_div; [apply within_of_Z; lia|lia|apply d53|apply (ranged_sane _ _ _ R1); lia]. }
    replace (IZR v / IZR d / IZR T) with (IZR v * s) in W by (unfold s; field; lra).
    destruct W as (y & Sy & L & U). exists y. split; [exact Sy|]. cbn [pow] in L, U. pose proof eps_pos as E0. pose proof eps_small as E1. pose proof s_pos.
    assert (0 < IZR v) by (apply IZR_lt; lia). assert (0 < IZR v * s) by (apply Rmult_lt_0_compat; lra). assert (eps * eps <= eps * / 16) by (apply Rmult_le_compat_l; lra).
    apply Rabs_le. split; nra.
Qed.
(** The difference of two prices, in units of [s]. *)
Local Lemma diff_near v : (l < v <= h)%Z -> exists y, stands (sub double (real double d T v) (real double d T l)) (s * y) /\ Rabs (y - IZR (v - l)) <= 8 * eps * IZR h.
Proof.
  intros Hv. destruct (real_near v ltac:(lia)) as (a & Sa & Ha). destruct (real_near l ltac:(lia)) as (b & Sb & Hb). pose proof s_pos as S0. pose proof eps_pos as E0. pose proof eps_small as E1.
  pose proof mh_eps as ME. pose proof mp as MP. assert (H0 : 1 <= IZR h) by (apply IZR_le; apply h40). assert (V0 : IZR l + 1 <= IZR v) by (rewrite <- plus_IZR; apply IZR_le; lia).
  assert (V1 : IZR v <= IZR h) by (apply IZR_le; lia). assert (L0 : 0 <= IZR l) by (apply IZR_le; lia).
  assert (EH : IZR h * eps <= / 16384) by nra.
  assert (Ez : Rabs (a - b - s * IZR (v - l)) <= s * (6 * eps * IZR h)).
  { rewrite minus_IZR. apply Rabs_le_inv in Ha. apply Rabs_le_inv in Hb. assert (eps * IZR v <= eps * IZR h) by (apply Rmult_le_compat_l; lra). assert (eps * IZR l <= eps * IZR h) by (apply Rmult_le_compat_l; lra).
    apply Rabs_le. split; nra. }
  set (z := (a - b) / s). assert (Zs : a - b = s * z) by (unfold z; field; lra). rewrite Zs in Ez.
  assert (Hz : Rabs (z - IZR (v - l)) <= 6 * eps * IZR h).
  { replace (s * z - s * IZR (v - l)) with (s * (z - IZR (v - l))) in Ez by ring. rewrite Rabs_mult, (Rabs_pos_eq s) in Ez by lra. apply Rmult_le_reg_l with s; assumption. }
  pose proof Hz as Hz'. apply Rabs_le_inv in Hz'. assert (Zl : / 2 <= z) by (rewrite minus_IZR in Hz'; lra). assert (Zh : z <= IZR h + 1) by (rewrite minus_IZR in Hz'; lra).
  pose proof s_ranged as [SR1 SR2].
  assert (B : bpow radix2 (-1022) <= s * z).
  { apply Rle_trans with (bpow radix2 (-107)); [apply bpow_le; lia|]. change (-107)%Z with (-106 + -1)%Z. rewrite bpow_plus. change (bpow radix2 (-1)) with (/ 2). pose proof (bpow_gt_0 radix2 (-106)). apply Rmult_le_compat; lra. }
  exists (rnd (s * z) / s). replace (s * (rnd (s * z) / s)) with (rnd (s * z)) by (field; lra). split.
  - rewrite <- Zs. apply sub_stands; [exact Sa|exact Sb|]. rewrite Zs. apply small_fits. apply small_bpow with 41%Z; [lia|]. rewrite Rabs_pos_eq by (pose proof (bpow_gt_0 radix2 (-1022)); lra).
    change 41%Z with (0 + 41)%Z. rewrite bpow_plus. apply Rmult_le_compat; try lra. apply Rle_trans with (1 := Zh). change (bpow radix2 41) with (IZR (2 ^ 41)). rewrite <- (plus_IZR h 1). apply IZR_le. pose proof h40. lia.
  - pose proof (rnd_pos_error (s * z) B) as [L U].
    assert (L' : z * (1 - eps) <= rnd (s * z) / s). { apply Rmult_le_reg_l with s; [lra|]. replace (s * (rnd (s * z) / s)) with (rnd (s * z)) by (field; lra). lra. }
    assert (U' : rnd (s * z) / s <= z * (1 + eps)). { apply Rmult_le_reg_l with s; [lra|]. replace (s * (rnd (s * z) / s)) with (rnd (s * z)) by (field; lra). lra. }
    assert (eps * z <= eps * (IZR h + 1)) by (apply Rmult_le_compat_l; lra). assert (eps * 1 <= eps * IZR h) by (apply Rmult_le_compat_l; lra). apply Rabs_le. lra.
Qed.
Local Lemma diff_ranged v y : (l < v <= h)%Z -> Rabs (y - IZR (v - l)) <= 8 * eps * IZR h -> ranged y (-1) 41 /\ ranged (s * y) (-107) 41.
Proof.
  intros Hv Hy. pose proof mh_eps as ME. pose proof mp as MP. assert (H0 : 1 <= IZR h) by (apply IZR_le; apply h40). assert (EH : IZR h * eps <= / 16384) by (pose proof eps_pos; nra).
  apply Rabs_le_inv in Hy. assert (V0 : 1 <= IZR (v - l) <= IZR h) by (split; apply IZR_le; lia).
  assert (R : ranged y (-1) 41). { split; [change (bpow radix2 (-1)) with (/ 2); lra|]. apply Rle_trans with (IZR h + 1); [lra|]. change (bpow radix2 41) with (IZR (2 ^ 41)). rewrite <- plus_IZR. apply IZR_le. pose proof h40. lia. }
  split; [exact R|]. apply (ranged_mul s y (-106) 0 (-1) 41); [apply s_ranged|exact R].
Qed.

(** The number of levels: one for every tick and one more, or one less than that. *)
Lemma levels_double : levels double d T l h = (m * (h - l) + 1)%Z \/ levels double d T l h = (m * (h - l))%Z.
Proof.
  destruct (diff_near h ltac:(lia)) as (y & Sy & Hy). destruct (diff_ranged h y ltac:(lia) Hy) as [Ry Rsy]. pose proof Td as HTd.
  assert (RT : ranged (IZR T) 0 53) by (apply ranged_IZR; lia). pose proof (ranged_mul _ _ _ _ _ _ Rsy RT) as R1. pose proof (ranged_mul _ _ _ _ _ _ R1 RT) as R2.
  assert (W2 : within (mul double (mul double (sub double (real double d T h) (real double d T l)) (of_Z double T)) (of_Z double T)) (s * y * IZR T * IZR T) 2).
  { apply within_mul; [|lia|lia|apply (ranged_sane _ _ _ R2); lia]. apply within_mul; [|lia|lia|apply (ranged_sane _ _ _ R1); lia]. now apply within_stands. }
  apply within_abs in W2; [|lia|left; apply (ranged_pos _ _ _ R2)]. destruct W2 as (p & Sp & Hp).
  replace (s * y * IZR T * IZR T) with (IZR m * y) in Hp by (rewrite <- sTT; ring).
  pose proof mh_eps as ME. pose proof mp as MP. pose proof eps_pos as E0. pose proof eps_small as E1. assert (H0 : 1 <= IZR h) by (apply IZR_le; apply h40).
  assert (BH : 1 <= IZR (h - l) <= IZR h) by (split; apply IZR_le; lia). apply Rabs_le_inv in Hy. apply Rabs_le_inv in Hp.
  assert (YH : eps * y <= eps * (2 * IZR h)) by (apply Rmult_le_compat_l; nra).
  assert (P : Rabs (p - IZR m * IZR (h - l)) <= / 256).
  { assert (K1 : IZR m * (y - IZR (h - l)) <= IZR m * (8 * eps * IZR h)) by (apply Rmult_le_compat_l; lra).
    assert (K2 : IZR m * - (8 * eps * IZR h) <= IZR m * (y - IZR (h - l))) by (apply Rmult_le_compat_l; lra).
    assert (K3 : IZR m * (eps * y) <= IZR m * (eps * (2 * IZR h))) by (apply Rmult_le_compat_l; lra). apply Rabs_le. split; nra. }
  assert (M0 : (1 <= m * (h - l) <= 2 ^ 40)%Z) by nia. rewrite <- mult_IZR in P. set (n := (m * (h - l))%Z) in *. apply Rabs_le_inv in P. assert (N1 : 1 <= IZR n <= IZR (2 ^ 40)) by (split; apply IZR_le; lia).
  assert (NE : IZR n * eps <= / 8192). { unfold n. rewrite mult_IZR. apply Rle_trans with (2 := ME). apply Rmult_le_compat_r; [lra|]. apply Rmult_le_compat_l; lra. }
  assert (Q1 : bpow radix2 (-1022) <= p + 1). { apply Rle_trans with 1; [|lra]. change 1 with (bpow radix2 0). apply bpow_le. lia. }
  pose proof (rnd_pos_error (p + 1) Q1) as [L U]. assert ((p + 1) * eps <= (IZR n + 2) * eps) by (apply Rmult_le_compat_r; lra).
  assert (E2 : eps <= / 1024) by (change (/ 1024) with (bpow radix2 (-10)); apply bpow_le; lia).
  assert (St : stands (add double (mul double (mul double (sub double (real double d T h) (real double d T l)) (of_Z double T)) (of_Z double T)) (of_Z double 1)) (rnd (p + 1))).
  { apply add_stands; [exact Sp|apply (of_Z_exact 1); lia|]. apply small_fits. apply small_bpow with 41%Z; [lia|]. rewrite Rabs_pos_eq by lra. replace (bpow radix2 41) with (IZR (2 ^ 40) * 2) by (change (bpow radix2 41) with (IZR (2 ^ 41)); rewrite <- mult_IZR; reflexivity). lra. }
  unfold levels. change (trunc_Z double) with double_trunc. rewrite (trunc_stands _ _ St). rewrite Ztrunc_floor by lra.
  destruct (floor_near (rnd (p + 1)) (n + 1)) as [F|F]; [rewrite plus_IZR; lra|left; exact F|right; lia].
Qed.

(** Common facts about the numbers. *)
Local Lemma basics : 2 <= IZR m /\ 1 <= IZR h /\ 0 < eps /\ eps <= / 1048576 /\ IZR h * eps <= / 16384 /\ IZR m * IZR h * eps <= / 8192 /\ 1 <= IZR (h - l) <= IZR h.
Proof.
  pose proof mh_eps as ME. pose proof mp as MP. pose proof eps_pos as E0. assert (H0 : 1 <= IZR h) by (apply IZR_le; apply h40).
  assert (E2 : eps <= / 1048576) by (change (/ 1048576) with (bpow radix2 (-20)); apply bpow_le; lia). repeat split; try assumption; try (apply IZR_le; lia); nra.
Qed.

(** Level zero is that of the lowest price. *)
Lemma encode_lowest : encode double d T l h l = 0%Z.
Proof.
  unfold encode. change (round_Z double) with double_round. destruct (diff_near h ltac:(lia)) as (y & Sy & Hy). destruct (diff_ranged h y ltac:(lia) Hy) as [Ry Rsy].
  destruct (real_near l ltac:(lia)) as (a & Sa & _).
  assert (S1 : stands (sub double (real double d T l) (real double d T l)) 0).
  { replace 0 with (rnd (a - a)) by (replace (a - a) with 0 by ring; apply rnd_0). apply sub_stands; [exact Sa|exact Sa|]. replace (a - a) with 0 by ring. rewrite rnd_0, Rabs_R0. apply bpow_gt_0. }
  assert (S2 : stands (div double (sub double (real double d T l) (real double d T l)) (sub double (real double d T h) (real double d T l))) 0).
  { pose proof (ranged_pos _ _ _ Rsy). replace 0 with (rnd (0 / (s * y))) by (unfold Rdiv; rewrite Rmult_0_l; apply rnd_0). apply div_stands; [exact S1|exact Sy|lra|]. unfold Rdiv. rewrite Rmult_0_l, rnd_0, Rabs_R0. apply bpow_gt_0. }
  assert (B : (Z.abs (levels double d T l h) <= 2 ^ 53)%Z) by (destruct levels_double as [-> | ->]; nia).
  pose proof (zero_mul _ _ S2 B) as S3. rewrite (double_round_stands _ _ S3) by lra. apply Zfloor_imp. change (IZR (0 + 1)) with 1. lra.
Qed.
Lemma encode_double v : (l < v < h)%Z ->
  encode double d T l h v = (m * (v - l))%Z \/ (levels double d T l h = m * (h - l) + 1 /\ encode double d T l h v = m * (v - l) + 1)%Z.
Proof.
  intros Hv. destruct basics as (B1 & B2 & B3 & B4 & B5 & B6 & B7).
  destruct (diff_near h ltac:(lia)) as (y & Sy & Hy). destruct (diff_ranged h y ltac:(lia) Hy) as [Ry Rsy].
  destruct (diff_near v ltac:(lia)) as (x & Sx & Hx). destruct (diff_ranged v x ltac:(lia) Hx) as [Rx Rsx].
  pose proof s_pos as S0. pose proof (ranged_pos _ _ _ Ry) as Y0. pose proof (ranged_pos _ _ _ Rx) as X0.
  assert (Rq : ranged (x / y) (-1 - 41) (41 - -1)) by now apply ranged_div.
  assert (Sq : stands (div double (sub double (real double d T v) (real double d T l)) (sub double (real double d T h) (real double d T l))) (rnd (x / y))).
  { replace (x / y) with (s * x / (s * y)) by (field; lra). pose proof (ranged_pos _ _ _ Rsy). apply div_stands; [exact Sx|exact Sy|lra|]. replace (s * x / (s * y)) with (x / y) by (field; lra).
    apply small_fits. destruct Rq as [Q1 Q2]. rewrite Rabs_pos_eq by (pose proof (bpow_gt_0 radix2 (-1 - 41)); lra). apply Rle_trans with (1 := Q2). apply bpow_le. lia. }
  assert (LV : exists N, levels double d T l h = N /\ (N = m * (h - l) + 1 \/ N = m * (h - l))%Z) by (destruct levels_double as [E|E]; eexists; split; try exact E; auto).
  destruct LV as (N & EN & HN). unfold encode. change (round_Z double) with double_round. rewrite EN.
  assert (HN' : (1 <= N <= 2 ^ 53)%Z) by nia.
  assert (W : within (mul double (div double (sub double (real double d T v) (real double d T l)) (sub double (real double d T h) (real double d T l))) (of_Z double N)) (x / y * IZR N) 2).
  { pose proof (ranged_mul _ _ _ _ _ _ Rq (ranged_IZR N 53 ltac:(lia) HN')) as RN. apply within_mul; [|lia|lia|apply (ranged_sane _ _ _ RN); lia].
    apply within_step with (x / y); [exact Sq|lia| |apply (ranged_sane _ _ _ Rq); lia]. cbn [pow]. lra. }
  assert (Np : 1 <= IZR N) by (apply IZR_le; lia). assert (Q0 : 0 < x / y) by (apply (ranged_pos _ _ _ Rq)).
  apply within_abs in W; [|lia|apply Rmult_le_pos; lra]. destruct W as (z & Sz & Hz).
  set (b := IZR (h - l)) in *. set (a := IZR (v - l)) in *. assert (AB : 1 <= a /\ a + 1 <= b) by (unfold a, b; split; [apply IZR_le; lia|rewrite <- plus_IZR; apply IZR_le; lia]).
  assert (K : 0 <= 8 * eps * IZR h) by nra. set (kap := 8 * eps * IZR h) in *. assert (K1 : kap <= / 2048) by (unfold kap; lra).
  apply Rabs_le_inv in Hx. apply Rabs_le_inv in Hy.
  (* the ratio *)
  assert (D1 : b * (x / y) <= a + 3 * kap).
  { apply Rmult_le_reg_r with y; [exact Y0|]. replace (b * (x / y) * y) with (b * x) by (field; lra). assert (b * x <= b * (a + kap)) by (apply Rmult_le_compat_l; lra).
    assert ((a + 3 * kap) * (b - kap) <= (a + 3 * kap) * y) by (apply Rmult_le_compat_l; lra). nra. }
  assert (D2 : a - 3 * kap <= b * (x / y)).
  { apply Rmult_le_reg_r with y; [exact Y0|]. replace (b * (x / y) * y) with (b * x) by (field; lra). assert (b * (a - kap) <= b * x) by (apply Rmult_le_compat_l; lra).
    assert ((a - 3 * kap) * y <= (a - 3 * kap) * (b + kap)) by (apply Rmult_le_compat_l; lra). nra. }
  set (t := x / y) in *. assert (MK : IZR m * kap <= / 1024) by (unfold kap; lra).
  assert (NB : IZR N = IZR m * b + 1 \/ IZR N = IZR m * b) by (destruct HN as [->| ->]; [left; rewrite plus_IZR, mult_IZR|right; rewrite mult_IZR]; reflexivity).
  assert (NE : eps * IZR N <= / 4096). { assert (eps * (IZR m * b) <= eps * (IZR m * IZR h)) by (apply Rmult_le_compat_l; [lra|apply Rmult_le_compat_l; lra]). destruct NB as [-> | ->]; lra. }
  assert (T1 : t <= 1). { apply Rmult_le_reg_l with b; [lra|]. lra. }
  assert (ZE : 6 * eps * (t * IZR N) <= / 512). { assert (t * (eps * IZR N) <= 1 * (eps * IZR N)) by (apply Rmult_le_compat_r; [apply Rmult_le_pos|]; lra). lra. }
  apply Rabs_le_inv in Hz.
  assert (MT1 : IZR m * (b * t) <= IZR m * (a + 3 * kap)) by (apply Rmult_le_compat_l; lra).
  assert (MT2 : IZR m * (a - 3 * kap) <= IZR m * (b * t)) by (apply Rmult_le_compat_l; lra).
  assert (IA : IZR (m * (v - l)) = IZR m * a) by (rewrite mult_IZR; reflexivity).
  assert (Z0 : 0 <= z). { assert (2 * 1 <= IZR m * a) by (apply Rmult_le_compat; lra). assert (IZR m * (b * t) <= t * IZR N) by (destruct NB as [-> | ->]; lra). lra. }
  rewrite (double_round_stands _ _ Sz Z0). destruct HN as [HN|HN].
  - destruct NB as [NB|NB]; [|exfalso; rewrite HN, plus_IZR, mult_IZR in NB; fold b in NB; lra].
    assert (E : t * IZR N = IZR m * (b * t) + t) by (rewrite NB; ring).
    destruct (floor_near (z + / 2) (m * (v - l) + 1)) as [F|F]; [rewrite plus_IZR, IA; lra|right; split; [exact HN|exact F]|left; lia].
  - left. destruct NB as [NB|NB]; [exfalso; rewrite HN, mult_IZR in NB; fold b in NB; lra|]. assert (E : t * IZR N = IZR m * (b * t)) by (rewrite NB; ring).
    apply Zfloor_imp. rewrite plus_IZR, IA. lra.
Qed.

Local Lemma intercept_near : exists c, stands (mul double (mul double (real double d T l) (of_Z double T)) (of_Z double T)) c /\ Rabs (c - IZR m * IZR l) <= / 1024 /\ (l = 0%Z -> c = 0).
Proof.
  destruct basics as (B1 & B2 & B3 & B4 & B5 & B6 & B7). pose proof Td as HTd. pose proof dp. pose proof Tp. assert (l = 0 \/ 1 <= l)%Z as [L0|L1] by lia.
  - exists 0. rewrite L0. split; [|split; [rewrite Rmult_0_r, Rminus_0_r, Rabs_R0; lra|auto]]. apply zero_mul; [|lia]. apply zero_mul; [|lia]. apply zero_div; [|lia]. apply zero_div; [apply (of_Z_exact 0); lia|apply d53].
  - pose proof h40. assert (RT : ranged (IZR T) 0 53) by (apply ranged_IZR; lia).
    assert (R1 : ranged (IZR l / IZR d) (0 - 53) (53 - 0)) by (apply ranged_div; apply ranged_IZR; try apply d53; lia).
    pose proof (ranged_div _ _ _ _ _ _ R1 RT) as R2. pose proof (ranged_mul _ _ _ _ _ _ R2 RT) as R3. pose proof (ranged_mul _ _ _ _ _ _ R3 RT) as R4.
    assert (W : within (mul double (mul double (real double d T l) (of_Z double T)) (of_Z double T)) (IZR l / IZR d / IZR T * IZR T * IZR T) 4).
    { apply within_mul; [|lia|lia|apply (ranged_sane _ _ _ R4); lia]. apply within_mul; [|lia|lia|apply (ranged_sane _ _ _ R3); lia].
      apply within_div; [|lia|lia|apply (ranged_sane _ _ _ R2); lia]. apply within_div; [apply within_of_Z; lia|lia|apply d53|apply (ranged_sane _ _ _ R1); lia]. }
    apply within_abs in W; [|lia|left; apply (ranged_pos _ _ _ R4)]. destruct W as (c & Sc & Hc). exists c. split; [exact Sc|]. split; [|intros; lia].
    replace (IZR l / IZR d / IZR T * IZR T * IZR T) with (IZR m * IZR l) in Hc by (unfold T; rewrite mult_IZR; field; lra).
    apply Rle_trans with (1 := Hc). assert (IZR m * IZR l <= IZR m * IZR h) by (apply Rmult_le_compat_l; [lra|apply IZR_le; lia]). nra.
Qed.
Local Lemma quotient_zero : stands (div double (of_Z double (double_round (mul double (mul double (mul double (of_Z double 0) (sub double (real double d T h) (real double d T l))) (of_Z double T)) (of_Z double T))))
  (of_Z double (levels double d T l h - 1))) 0.
Proof.
  pose proof Td as HTd. destruct (diff_near h ltac:(lia)) as (y & Sy & _). pose proof (zero_mul_l _ _ Sy) as S1. pose proof (zero_mul _ T S1 ltac:(lia)) as S2. pose proof (zero_mul _ T S2 ltac:(lia)) as S3.
  rewrite (double_round_stands _ _ S3) by lra. assert (Zfloor (0 + / 2) = 0)%Z as -> by (apply Zfloor_imp; change (IZR (0 + 1)) with 1; lra).
  apply zero_div; [apply (of_Z_exact 0); lia|]. destruct levels_double as [-> | ->]; nia.
Qed.
Local Lemma quotient_near v i : (l < v < h)%Z -> (i = m * (v - l) \/ levels double d T l h = m * (h - l) + 1 /\ i = m * (v - l) + 1)%Z ->
  exists q, stands (div double (of_Z double (double_round (mul double (mul double (mul double (of_Z double i) (sub double (real double d T h) (real double d T l))) (of_Z double T)) (of_Z double T))))
    (of_Z double (levels double d T l h - 1))) q /\ IZR m * IZR (v - l) - / 3 <= q <= IZR m * IZR (v - l) + 1 + / 3.
Proof.
  intros Hv Hi. destruct basics as (B1 & B2 & B3 & B4 & B5 & B6 & B7). pose proof Td as HTd.
  destruct (diff_near h ltac:(lia)) as (y & Sy & Hy). destruct (diff_ranged h y ltac:(lia) Hy) as [Ry Rsy]. pose proof (ranged_pos _ _ _ Ry) as Y0.
  assert (Ib : (2 <= i <= m * (h - l))%Z) by nia. assert (Ib' : (i <= 2 ^ 40)%Z) by nia.
  assert (RT : ranged (IZR T) 0 53) by (apply ranged_IZR; lia). assert (RI : ranged (IZR i) 0 53) by (apply ranged_IZR; lia).
  pose proof (ranged_mul _ _ _ _ _ _ RI Rsy) as R1. pose proof (ranged_mul _ _ _ _ _ _ R1 RT) as R2. pose proof (ranged_mul _ _ _ _ _ _ R2 RT) as R3.
  assert (W : within (mul double (mul double (mul double (of_Z double i) (sub double (real double d T h) (real double d T l))) (of_Z double T)) (of_Z double T)) (IZR i * (s * y) * IZR T * IZR T) 3).
  { apply within_mul; [|lia|lia|apply (ranged_sane _ _ _ R3); lia]. apply within_mul; [|lia|lia|apply (ranged_sane _ _ _ R2); lia].
    apply within_mul_l; [now apply within_stands|lia|lia|apply (ranged_sane _ _ _ R1); lia]. }
  apply within_abs in W; [|lia|left; apply (ranged_pos _ _ _ R3)]. destruct W as (p & Sp & Hp).
  replace (IZR i * (s * y) * IZR T * IZR T) with (IZR i * IZR m * y) in Hp by (rewrite <- sTT; ring).
  set (b := IZR (h - l)) in *. assert (K : 0 <= 8 * eps * IZR h) by nra. set (kap := 8 * eps * IZR h) in *. assert (MK : IZR m * kap <= / 1024) by (unfold kap; lra). assert (K1 : kap <= / 2048) by (unfold kap; lra).
  assert (I2 : 2 <= IZR i) by (apply IZR_le; lia). assert (IM : 0 <= IZR i * IZR m) by (apply Rmult_le_pos; lra). assert (IM4 : 4 <= IZR i * IZR m) by nra.
  apply Rabs_le_inv in Hy. apply Rabs_le_inv in Hp.
  set (P := IZR i * IZR m * kap) in *. assert (P0 : 0 <= P) by (apply Rmult_le_pos; lra).
  set (C := IZR i * IZR m * b) in *. assert (C4 : 4 <= C) by (unfold C; nra).
  assert (A1 : IZR i * IZR m * y <= C + P) by (unfold C, P; rewrite <- Rmult_plus_distr_l; apply Rmult_le_compat_l; lra).
  assert (A2 : C - P <= IZR i * IZR m * y) by (unfold C, P; rewrite <- Rmult_minus_distr_l; apply Rmult_le_compat_l; lra).
  assert (A3 : 6 * eps * (IZR i * IZR m * y) <= 3 * / 2 * P).
  { unfold P. replace (6 * eps * (IZR i * IZR m * y)) with (IZR i * IZR m * (6 * eps * y)) by ring. replace (3 * / 2 * (IZR i * IZR m * kap)) with (IZR i * IZR m * (3 * / 2 * kap)) by ring. apply Rmult_le_compat_l; [exact IM|].
    unfold kap. assert (eps * y <= eps * (2 * IZR h)) by (apply Rmult_le_compat_l; lra). lra. }
  assert (P1 : P <= C * / 2048).
  { unfold P, C. rewrite (Rmult_assoc (IZR i * IZR m) b). apply Rmult_le_compat_l; [exact IM|]. lra. }
  assert (p0 : 0 <= p) by lra.
  rewrite (double_round_stands _ _ Sp p0). set (rev := Zfloor (p + / 2)).
  assert (F1 : p - / 2 <= IZR rev <= p + / 2). { unfold rev. pose proof (Zfloor_lb (p + / 2)). pose proof (Zfloor_ub (p + / 2)). lra. }
  assert (Rp : 1 <= IZR rev) by lra.
  assert (Cb : C <= bpow radix2 81).
  { unfold C, b. rewrite <- !mult_IZR. change (bpow radix2 81) with (IZR (2 ^ 81)). apply IZR_le. replace (i * m * (h - l))%Z with (i * (m * (h - l)))%Z by ring. assert (m * (h - l) <= 2 ^ 40)%Z by nia.
    apply Z.le_trans with (2 ^ 40 * 2 ^ 40)%Z; [|lia]. apply Z.mul_le_mono_nonneg; lia. }
  assert (Sr : stands (of_Z double rev) (rnd (IZR rev))).
  { apply of_Z_stands. apply small_fits. rewrite Rabs_pos_eq by lra. apply Rle_trans with (bpow radix2 83); [|apply bpow_le; lia]. replace (bpow radix2 83) with (4 * bpow radix2 81) by (change 83%Z with (2 + 81)%Z; rewrite bpow_plus; reflexivity).
    pose proof (bpow_gt_0 radix2 81). lra. }
  assert (Er : IZR rev * (1 - eps) <= rnd (IZR rev) <= IZR rev * (1 + eps)). { apply rnd_pos_error. apply Rle_trans with (2 := Rp). change 1 with (bpow radix2 0). apply bpow_le. lia. }
  set (R := rnd (IZR rev)) in *. assert (A4 : eps * C <= / 8 * P).
  { unfold C, P. replace (eps * (IZR i * IZR m * b)) with (IZR i * IZR m * (eps * b)) by ring. replace (/ 8 * (IZR i * IZR m * kap)) with (IZR i * IZR m * (/ 8 * kap)) by ring. apply Rmult_le_compat_l; [exact IM|].
    unfold kap. assert (eps * b <= eps * IZR h) by (apply Rmult_le_compat_l; lra). lra. }
  assert (A5 : eps * IZR rev <= eps * (2 * C)) by (apply Rmult_le_compat_l; lra).
  assert (G : C - 3 * P - / 2 <= R <= C + 3 * P + / 2) by lra.
  assert (R0 : 1 <= R) by lra.
  set (M := (levels double d T l h - 1)%Z). assert (HM : (M = m * (h - l) \/ M = m * (h - l) - 1 /\ i = m * (v - l))%Z) by (unfold M; destruct Hi as [Hi|[HL Hi]], levels_double as [E|E]; lia).
  assert (M3 : (3 <= M \/ M = m * (h - l))%Z /\ (2 <= M <= 2 ^ 53)%Z) by (destruct HM as [->|[-> _]]; nia).
  assert (Mp : 2 <= IZR M) by (apply IZR_le; lia). assert (iM : IZR i <= IZR M + 1) by (rewrite <- plus_IZR; apply IZR_le; lia).
  assert (PM : P <= IZR M * / 512). { unfold P. replace (IZR i * IZR m * kap) with (IZR i * (IZR m * kap)) by ring. assert (IZR i * (IZR m * kap) <= (IZR M + 1) * (IZR m * kap)) by (apply Rmult_le_compat_r; [apply Rmult_le_pos; lra|exact iM]). assert ((IZR M + 1) * (IZR m * kap) <= (IZR M + 1) * / 1024) by (apply Rmult_le_compat_l; lra). lra. }
  set (a := IZR (v - l)) in *. set (g := R / IZR M). assert (gM : g * IZR M = R) by (unfold g; field; lra).
  assert (EI : IZR m * a <= IZR i <= IZR m * a + 1).
  { unfold a. rewrite <- mult_IZR, <- plus_IZR. split; apply IZR_le; destruct Hi as [->|[_ ->]]; lia. }
  assert (GB : IZR m * a - / 3 + / 1000 <= g <= IZR m * a + 1 + / 3 - / 1000).
  { destruct HM as [HM|[HM HI]].
    - assert (CM : C = IZR i * IZR M) by (unfold C; rewrite HM, mult_IZR; fold b; ring). split; apply Rmult_le_reg_r with (IZR M); try lra; rewrite gM.
      + apply Rle_trans with ((IZR i - / 3 + / 1000) * IZR M); [apply Rmult_le_compat_r; lra|]. lra.
      + apply Rle_trans with ((IZR i + / 3 - / 1000) * IZR M); [lra|apply Rmult_le_compat_r; lra].
    - assert (M3' : 3 <= IZR M) by (apply IZR_le; nia). assert (CM : C = IZR i * IZR M + IZR i) by (unfold C; rewrite HM, minus_IZR, mult_IZR; fold b; ring).
      assert (EI' : IZR i = IZR m * a) by (rewrite HI, mult_IZR; reflexivity). assert (iM' : IZR i <= IZR M - 1) by (rewrite <- minus_IZR; apply IZR_le; nia).
      split; apply Rmult_le_reg_r with (IZR M); try lra; rewrite gM, <- EI'; lra. }
  assert (RG : ranged g (-1) 41).
  { split; [change (bpow radix2 (-1)) with (/ 2); assert (A1' : 1 <= a) by (apply IZR_le; lia); assert (2 * 1 <= IZR m * a) by (apply Rmult_le_compat; lra); lra|]. apply Rle_trans with (IZR i + 2); [lra|]. change (bpow radix2 41) with (IZR (2 ^ 41)). rewrite <- plus_IZR. apply IZR_le. lia. }
  assert (Sg : stands (div double (of_Z double rev) (of_Z double M)) (rnd g)).
  { apply div_stands; [exact Sr|apply of_Z_exact; lia|lra|]. fold g. destruct RG as [G1 G2]. apply small_fits. rewrite Rabs_pos_eq by (pose proof (bpow_gt_0 radix2 (-1)); lra). apply Rle_trans with (1 := G2). apply bpow_le. lia. }
  exists (rnd g). split; [exact Sg|]. assert (Eg : g * (1 - eps) <= rnd g <= g * (1 + eps)). { apply rnd_pos_error. apply Rle_trans with (bpow radix2 (-1)); [apply bpow_le; lia|apply RG]. }
  assert (ge : eps * g <= / 2000).
  { assert (IZR m * a <= IZR m * IZR h) by (apply Rmult_le_compat_l; [lra|apply IZR_le; lia]). assert (eps * g <= eps * (IZR m * IZR h + 2)) by (apply Rmult_le_compat_l; lra). lra. }
  lra.
Qed.
Lemma decode_double v : (l <= v < h)%Z ->
  decode double d T l h (encode double d T l h v) = v \/ decode double d T l h (encode double d T l h v) = (v - 1)%Z.
Proof.
  intros Hv. destruct basics as (B1 & B2 & B3 & B4 & B5 & B6 & B7). pose proof Td as HTd. pose proof dp. pose proof Tp. destruct intercept_near as (c & Sc & Hc & Hc0).
  assert (Q : exists q, stands (div double (of_Z double (double_round (mul double (mul double (mul double (of_Z double (encode double d T l h v)) (sub double (real double d T h) (real double d T l))) (of_Z double T)) (of_Z double T))))
    (of_Z double (levels double d T l h - 1))) q /\ IZR m * IZR (v - l) - / 3 <= q <= IZR m * IZR (v - l) + 1 + / 3 /\ (v = l -> q = 0)).
  { assert (v = l \/ l < v)%Z as [->|L] by lia.
    - exists 0. rewrite encode_lowest, Z.sub_diag. split; [apply quotient_zero|]. rewrite Rmult_0_r. split; [lra|auto].
    - destruct (quotient_near v _ ltac:(lia) (encode_double v ltac:(lia))) as (q & Sq & Hq). exists q. split; [exact Sq|]. split; [exact Hq|intros; lia]. }
  destruct Q as (q & Sq & Hq & Hq0). unfold decode. cbv zeta. change (round_Z double) with double_round. change (trunc_Z double) with double_trunc.
  apply Rabs_le_inv in Hc. assert (E : IZR m * IZR (v - l) + IZR m * IZR l = IZR m * IZR v) by (rewrite minus_IZR; ring).
  assert (V0 : 0 <= IZR v) by (apply IZR_le; lia). assert (Vh : IZR v <= IZR h) by (apply IZR_le; lia). assert (MV : IZR m * IZR v <= IZR m * IZR h) by (apply Rmult_le_compat_l; lra).
  assert (Sum : IZR m * IZR v - / 2 <= q + c <= IZR m * IZR v + 1 + / 2) by lra.
  assert (MH : IZR m * IZR h <= IZR (2 ^ 40)) by (rewrite <- mult_IZR; apply IZR_le; exact Hmh).
  assert (S1 : stands (add double (div double (of_Z double (double_round (mul double (mul double (mul double (of_Z double (encode double d T l h v)) (sub double (real double d T h) (real double d T l))) (of_Z double T)) (of_Z double T))))
    (of_Z double (levels double d T l h - 1))) (mul double (mul double (real double d T l) (of_Z double T)) (of_Z double T))) (rnd (q + c))).
  { apply add_stands; [exact Sq|exact Sc|]. apply small_fits. apply small_bpow with 41%Z; [lia|]. replace (bpow radix2 41) with (IZR (2 ^ 40) * 2) by (change (bpow radix2 41) with (IZR (2 ^ 41)); rewrite <- mult_IZR; reflexivity).
    assert (4 <= IZR (2 ^ 40)) by (apply IZR_le; lia). assert (0 <= IZR m * IZR v) by (apply Rmult_le_pos; lra). apply Rabs_le. lra. }
  assert (v = 0 \/ 1 <= v)%Z as [V|V1] by lia.
  - left. assert (q = 0) as -> by (apply Hq0; lia). assert (c = 0) as -> by (apply Hc0; lia). replace (0 + 0) with 0 in S1 by ring. rewrite rnd_0 in S1.
    pose proof (zero_div _ T S1 HTd) as S2. pose proof (zero_mul _ d S2 ltac:(pose proof d53; lia)) as S3. rewrite (trunc_stands _ _ S3), V. apply (Ztrunc_IZR 0).
  - assert (V1' : 1 <= IZR v) by (apply IZR_le; lia). assert (MV2 : 2 * 1 <= IZR m * IZR v) by (apply Rmult_le_compat; lra).
    assert (Eu : (q + c) * (1 - eps) <= rnd (q + c) <= (q + c) * (1 + eps)). { apply rnd_pos_error. apply Rle_trans with 1; [|lra]. change 1 with (bpow radix2 0). apply bpow_le. lia. }
    assert (eu : eps * (q + c) <= / 4000). { assert (eps * (q + c) <= eps * (IZR m * IZR h + 2)) by (apply Rmult_le_compat_l; lra). lra. }
    set (u := rnd (q + c)) in *. assert (U : IZR m * IZR v - / 2 - / 4000 <= u <= IZR m * IZR v + 1 + / 2 + / 4000) by lra.
    assert (Ru : ranged u 0 41).
    { split; [change (bpow radix2 0) with 1; lra|]. replace (bpow radix2 41) with (IZR (2 ^ 40) * 2) by (change (bpow radix2 41) with (IZR (2 ^ 41)); rewrite <- mult_IZR; reflexivity). assert (4 <= IZR (2 ^ 40)) by (apply IZR_le; lia). lra. }
    assert (RT : ranged (IZR T) 0 53) by (apply ranged_IZR; lia). assert (Rd : ranged (IZR d) 0 53) by (apply ranged_IZR; [lia|apply d53]). pose proof (ranged_div _ _ _ _ _ _ Ru RT) as R2. pose proof (ranged_mul _ _ _ _ _ _ R2 Rd) as R3.
    match goal with |- context [mul double (div double ?x (of_Z double T)) (of_Z double d)] => assert (W : within (mul double (div double x (of_Z double T)) (of_Z double d)) (u / IZR T * IZR d) 2) end.
    { apply within_mul; [|lia|apply d53|apply (ranged_sane _ _ _ R3); lia]. apply within_div; [|lia|lia|apply (ranged_sane _ _ _ R2); lia]. now apply within_stands. }
    apply within_abs in W; [|lia|left; apply (ranged_pos _ _ _ R3)]. destruct W as (w & Sw & Hw). rewrite (trunc_stands _ _ Sw).
    replace (u / IZR T * IZR d) with (u / IZR m) in Hw by (unfold T; rewrite mult_IZR; field; lra). apply Rabs_le_inv in Hw.
    set (g := u / IZR m) in *. assert (gm : g * IZR m = u) by (unfold g; field; lra).
    assert (G1 : IZR v - / 3 <= g). { apply Rmult_le_reg_r with (IZR m); [lra|]. rewrite gm. nra. }
    assert (G2 : g <= IZR v + 4 / 5). { apply Rmult_le_reg_r with (IZR m); [lra|]. rewrite gm. nra. }
    assert (ge : eps * g <= / 1000). { assert (eps * g <= eps * (IZR h + 1)) by (apply Rmult_le_compat_l; lra). lra. }
    rewrite Ztrunc_floor by lra. apply floor_near. lra.
Qed.
(** The highest price is one level too far. *)
Lemma encode_highest : encode double d T l h h = levels double d T l h.
Proof.
  unfold encode. change (round_Z double) with double_round. destruct (diff_near h ltac:(lia)) as (y & Sy & Hy). destruct (diff_ranged h y ltac:(lia) Hy) as [Ry Rsy]. pose proof (ranged_pos _ _ _ Rsy) as P. pose proof s_pos. pose proof (ranged_pos _ _ _ Ry).
  assert (S1 : stands (div double (sub double (real double d T h) (real double d T l)) (sub double (real double d T h) (real double d T l))) (IZR 1)).
  { rewrite <- (rnd_IZR 1) by lia. replace 1 with (s * y / (s * y)) by (field; lra). apply div_stands; [exact Sy|exact Sy|lra|]. replace (s * y / (s * y)) with (IZR 1) by (field; lra).
    rewrite (rnd_IZR 1) by lia. rewrite Rabs_R1. change (IZR 1) with (bpow radix2 0). apply bpow_lt. reflexivity. }
  assert (B : (1 <= levels double d T l h <= 2 ^ 53)%Z) by (destruct levels_double as [-> | ->]; nia). set (N := levels double d T l h) in *.
  assert (S2 : stands (mul double (div double (sub double (real double d T h) (real double d T l)) (sub double (real double d T h) (real double d T l))) (of_Z double N)) (IZR N)).
  { rewrite <- (rnd_IZR N) by lia. assert (rnd (IZR N) = rnd (IZR 1 * IZR N)) as -> by (f_equal; ring). apply mul_stands; [exact S1|apply of_Z_exact; lia|]. apply small_fits. rewrite Rmult_1_l. apply small_bpow with 53%Z; [lia|]. apply IZR_bound; lia. }
  rewrite (double_round_stands _ _ S2) by (apply IZR_le; lia). apply Zfloor_imp. rewrite plus_IZR. lra.
Qed.
End Book.
