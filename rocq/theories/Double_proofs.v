(** Double precision numbers and real numbers: the operations of [StaticTicks.double] are the real ones,
    rounded. *)
From Coq Require Import SpecFloat Reals Psatz.
From Flocq Require Import Core IEEE754.BinarySingleNaN Relative.
From Verif Require Import Base StaticTicks.
From Verif Require Export Double_spec.
Local Open Scope R_scope.

Local Instance Hprec : Prec_gt_0 53 := eq_refl.
Local Instance Hmax : Prec_lt_emax 53 1024 := eq_refl.

(** Rounding to the nearest double, ties to even. *)
Definition fexp64 := SpecFloat.fexp 53 1024.
Definition rnd (r : R) : R := round radix2 fexp64 ZnearestE r.
Definition biggest : R := bpow radix2 1024.

(** ** The operations of the standard library are those of Flocq (proofs as in Flocq.IEEE754.PrimFloat). *)
Lemma nearest_even_equiv s m l : round_nearest_even m l = choice_mode mode_NE s m l.
Proof. case l; [reflexivity|intro c]. case c; [ | reflexivity..]. now simpl; unfold Round.cond_incr; case Z.even. Qed.
Lemma round_aux_equiv sx mx ex lx : SpecFloat.binary_round_aux 53 1024 sx mx ex lx = binary_round_aux 53 1024 mode_NE sx mx ex lx.
Proof.
  unfold SpecFloat.binary_round_aux, binary_round_aux. set (mrse' := shr_fexp _ _ _).
  case mrse'; intros mrs' e'; simpl. now rewrite (nearest_even_equiv sx).
Qed.
Lemma round_equiv s m e : SpecFloat.binary_round 53 1024 s m e = binary_round 53 1024 mode_NE s m e.
Proof. unfold SpecFloat.binary_round, binary_round, shl_align_fexp. set (mez := shl_align _ _ _); case mez as [mz ez]. apply round_aux_equiv. Qed.
Lemma normalize_equiv m e szero : SpecFloat.binary_normalize 53 1024 m e szero = B2SF (binary_normalize 53 1024 Hprec Hmax mode_NE m e szero).
Proof.
  case m as [ | p | p].
  - now simpl.
  - simpl; rewrite B2SF_SF2B; apply round_equiv.
  - simpl; rewrite B2SF_SF2B; apply round_equiv.
Qed.
Lemma mul_equiv (x y : b64) : SFmul 53 1024 (B2SF x) (B2SF y) = B2SF (Bmult mode_NE x y).
Proof. case x as [sx|sx| |sx mx ex Bx]; case y as [sy|sy| |sy my ey By]; [now trivial.. | ]. simpl. rewrite B2SF_SF2B. apply round_aux_equiv. Qed.
Lemma add_equiv (x y : b64) : SFadd 53 1024 (B2SF x) (B2SF y) = B2SF (Bplus mode_NE x y).
Proof.
  case x as [sx|sx| |sx mx ex Bx]; case y as [sy|sy| |sy my ey By]; [now (trivial || simpl; case Bool.eqb).. | ].
  apply normalize_equiv.
Qed.
Lemma sub_equiv (x y : b64) : SFsub 53 1024 (B2SF x) (B2SF y) = B2SF (Bminus mode_NE x y).
Proof.
  case x as [sx|sx| |sx mx ex Bx]; case y as [sy|sy| |sy my ey By]; [now (trivial || simpl; case Bool.eqb).. | ].
  simpl. unfold Zminus. rewrite <- cond_Zopp_negb. apply normalize_equiv.
Qed.
Lemma div_equiv (x y : b64) : SFdiv 53 1024 (B2SF x) (B2SF y) = B2SF (Bdiv mode_NE x y).
Proof.
  case x as [sx|sx| |sx mx ex Bx]; case y as [sy|sy| |sy my ey By]; [now (trivial || simpl; case Bool.eqb).. | ].
  simpl. rewrite B2SF_SF2B. set (melz := SFdiv_core_binary _ _ _ _ _ _). case melz as [[mz ez] lz]. apply round_aux_equiv.
Qed.

(** ** What the operations stand for, unless too large. *)
Lemma of_Z_stands z : Rabs (rnd (IZR z)) < biggest -> stands (of_Z double z) (rnd (IZR z)).
Proof.
  intros H. cbn [of_Z double]. rewrite normalize_equiv.
  pose proof (binary_normalize_correct 53 1024 Hprec Hmax mode_NE z 0 false) as C. cbv zeta in C.
  assert (E : F2R (Float radix2 z 0) = IZR z) by (unfold F2R; cbn; lra). rewrite E in C.
  fold fexp64 in C. change (round_mode mode_NE) with ZnearestE in C. fold (rnd (IZR z)) in C. fold biggest in C.
  rewrite Rlt_bool_true in C by exact H. destruct C as (A & B & _).
  exists (binary_normalize 53 1024 Hprec Hmax mode_NE z 0 false). auto.
Qed.
Lemma mul_stands x y a b : stands x a -> stands y b -> Rabs (rnd (a * b)) < biggest -> stands (mul double x y) (rnd (a * b)).
Proof.
  intros (u & <- & Fu & <-) (v & <- & Fv & <-) H. cbn [mul double]. rewrite mul_equiv.
  pose proof (Bmult_correct 53 1024 Hprec Hmax mode_NE u v) as C.
  change (round_mode mode_NE) with ZnearestE in C. fold fexp64 in C. fold (rnd (B2R u * B2R v)) in C. fold biggest in C.
  rewrite Rlt_bool_true in C by exact H. destruct C as (A & B & _).
  exists (Bmult mode_NE u v). split; [reflexivity|]. split; [|exact A]. rewrite B, Fu, Fv. reflexivity.
Qed.
Lemma add_stands x y a b : stands x a -> stands y b -> Rabs (rnd (a + b)) < biggest -> stands (add double x y) (rnd (a + b)).
Proof.
  intros (u & <- & Fu & <-) (v & <- & Fv & <-) H. cbn [add double]. rewrite add_equiv.
  pose proof (Bplus_correct 53 1024 Hprec Hmax mode_NE u v Fu Fv) as C.
  change (round_mode mode_NE) with ZnearestE in C. fold fexp64 in C. fold (rnd (B2R u + B2R v)) in C. fold biggest in C.
  rewrite Rlt_bool_true in C by exact H. destruct C as (A & B & _).
  exists (Bplus mode_NE u v). auto.
Qed.
Lemma sub_stands x y a b : stands x a -> stands y b -> Rabs (rnd (a - b)) < biggest -> stands (sub double x y) (rnd (a - b)).
Proof.
  intros (u & <- & Fu & <-) (v & <- & Fv & <-) H. cbn [sub double]. rewrite sub_equiv.
  pose proof (Bminus_correct 53 1024 Hprec Hmax mode_NE u v Fu Fv) as C.
  change (round_mode mode_NE) with ZnearestE in C. fold fexp64 in C. fold (rnd (B2R u - B2R v)) in C. fold biggest in C.
  rewrite Rlt_bool_true in C by exact H. destruct C as (A & B & _).
  exists (Bminus mode_NE u v). auto.
Qed.
Lemma div_stands x y a b : stands x a -> stands y b -> b <> 0 -> Rabs (rnd (a / b)) < biggest -> stands (div double x y) (rnd (a / b)).
Proof.
  intros (u & <- & Fu & <-) (v & <- & Fv & <-) N H. cbn [div double]. rewrite div_equiv.
  pose proof (Bdiv_correct 53 1024 Hprec Hmax mode_NE u v N) as C.
  change (round_mode mode_NE) with ZnearestE in C. fold fexp64 in C. fold (rnd (B2R u / B2R v)) in C. fold biggest in C.
  rewrite Rlt_bool_true in C by exact H. destruct C as (A & B & _).
  exists (Bdiv mode_NE u v). split; [reflexivity|]. split; [|exact A]. rewrite B, Fu. reflexivity.
Qed.

(** ** Conversion to integers. *)
Lemma trunc_pos (m : positive) e : (if (0 <=? e)%Z then Z.pos m * 2 ^ e else Z.pos m / 2 ^ (- e))%Z = Zfloor (F2R (Float radix2 (Z.pos m) e)).
Proof.
  destruct (Z.leb_spec 0 e) as [H|H].
  - unfold F2R. cbn [Fnum Fexp]. rewrite <- (IZR_Zpower radix2 e H), <- mult_IZR, Zfloor_IZR. reflexivity.
  - unfold F2R. cbn [Fnum Fexp]. rewrite <- (Z.opp_involutive e) at 2. rewrite bpow_opp, <- (IZR_Zpower radix2 (- e)) by lia.
    change (IZR (Z.pos m) * / IZR (radix2 ^ (- e))) with (IZR (Z.pos m) / IZR (radix2 ^ (- e))).
    rewrite Zfloor_div; [reflexivity|]. change (radix_val radix2) with 2%Z. pose proof (Z.pow_pos_nonneg 2 (- e)). lia.
Qed.
Lemma trunc_stands x r : stands x r -> double_trunc x = Ztrunc r.
Proof.
  intros (b & <- & F & <-). destruct b as [s|s| |s m e B]; try discriminate F; cbn.
  - now rewrite Ztrunc_IZR.
  - rewrite trunc_pos. destruct s.
    + change (cond_Zopp true (Z.pos m)) with (- Z.pos m)%Z. rewrite F2R_Zopp, Ztrunc_opp. f_equal. symmetry. apply Ztrunc_floor.
      apply F2R_ge_0. easy.
    + symmetry. apply Ztrunc_floor. apply F2R_ge_0. easy.
Qed.

(** ** Rounding. *)
Lemma fexp64_FLT : fexp64 = FLT_exp (-1074) 53.
Proof. reflexivity. Qed.
Local Instance valid64 : Valid_exp fexp64.
Proof. rewrite fexp64_FLT. apply FLT_exp_valid. reflexivity. Qed.
Lemma rnd_error a : bpow radix2 (-1022) <= Rabs a -> Rabs (rnd a - a) <= bpow radix2 (-53) * Rabs a.
Proof.
  intros H. unfold rnd. rewrite fexp64_FLT.
  pose proof (relative_error_N_FLT radix2 (-1074) 53 eq_refl (fun x => negb (Z.even x)) a H) as E.
  change (- (53) + 1)%Z with (-52)%Z in E. replace (/ 2 * bpow radix2 (-52)) with (bpow radix2 (-53)) in E; [exact E|].
  change (-52)%Z with (1 + -53)%Z. rewrite bpow_plus. change (bpow radix2 1) with 2. lra.
Qed.
Lemma rnd_le a b : a <= b -> rnd a <= rnd b.
Proof. apply round_le; typeclasses eauto. Qed.
Lemma rnd_0 : rnd 0 = 0.
Proof. apply round_0. typeclasses eauto. Qed.
Lemma rnd_opp a : rnd (- a) = - rnd a.
Proof. unfold rnd. apply round_NE_opp. Qed.
(** Numbers [m * 2^e] with a mantissa of at most 53 bits are not changed. *)
Lemma rnd_exact m e : (Z.abs m <= 2 ^ 53)%Z -> (-1074 <= e)%Z -> rnd (IZR m * bpow radix2 e) = IZR m * bpow radix2 e.
Proof.
  intros Hm He. apply round_generic; [typeclasses eauto|]. rewrite fexp64_FLT.
  assert (D : (Z.abs m < 2 ^ 53 \/ Z.abs m = 2 ^ 53)%Z) by lia. destruct D as [L|E].
  - apply generic_format_FLT. exists (Float radix2 m e); [reflexivity|exact L|exact He].
  - assert (G : generic_format radix2 (FLT_exp (-1074) 53) (bpow radix2 (53 + e))).
    { apply generic_format_bpow. unfold FLT_exp. lia. }
    destruct (Z.abs_spec m) as [[_ A]|[_ A]]; rewrite A in E.
    + rewrite E. change (2 ^ 53)%Z with (radix2 ^ 53)%Z. rewrite (IZR_Zpower radix2 53) by lia. rewrite <- bpow_plus. exact G.
    + replace m with (- 2 ^ 53)%Z by lia. rewrite opp_IZR, Ropp_mult_distr_l_reverse. apply generic_format_opp.
      change (2 ^ 53)%Z with (radix2 ^ 53)%Z. rewrite (IZR_Zpower radix2 53) by lia. rewrite <- bpow_plus. exact G.
Qed.
Lemma rnd_IZR z : (Z.abs z <= 2 ^ 53)%Z -> rnd (IZR z) = IZR z.
Proof. intros H. pose proof (rnd_exact z 0 H ltac:(lia)) as E. cbn in E. now rewrite Rmult_1_r in E. Qed.
Lemma rnd_half z : (Z.abs z < 2 ^ 52)%Z -> rnd (IZR z + / 2) = IZR z + / 2.
Proof.
  intros H. replace (IZR z + / 2) with (IZR (2 * z + 1) * bpow radix2 (-1)).
  - apply rnd_exact; lia.
  - rewrite plus_IZR, mult_IZR. change (bpow radix2 (-1)) with (/ 2). lra.
Qed.
(** Nothing below [2^1000] gets too large. *)
Lemma small_fits a : Rabs a <= bpow radix2 1000 -> Rabs (rnd a) < biggest.
Proof.
  intros H. apply Rle_lt_trans with (bpow radix2 1000); [|apply bpow_lt; reflexivity].
  unfold rnd. apply abs_round_le_generic; [typeclasses eauto|typeclasses eauto| |exact H].
  rewrite fexp64_FLT. apply generic_format_bpow. unfold FLT_exp. lia.
Qed.
Lemma of_Z_exact z : (Z.abs z <= 2 ^ 53)%Z -> stands (of_Z double z) (IZR z).
Proof.
  intros H. rewrite <- (rnd_IZR z H). apply of_Z_stands. rewrite (rnd_IZR z H).
  rewrite <- abs_IZR. apply Rle_lt_trans with (IZR (2 ^ 53)); [apply IZR_le; exact H|].
  change (2 ^ 53)%Z with (radix2 ^ 53)%Z. rewrite (IZR_Zpower radix2 53) by lia. apply bpow_lt. reflexivity.
Qed.
Lemma rnd_bound a k : (-1000 <= k)%Z -> Rabs a <= bpow radix2 k -> Rabs (rnd a) <= bpow radix2 k.
Proof.
  intros Hk H. unfold rnd. apply abs_round_le_generic; [typeclasses eauto|typeclasses eauto| |exact H].
  rewrite fexp64_FLT. apply generic_format_bpow. unfold FLT_exp. lia.
Qed.
