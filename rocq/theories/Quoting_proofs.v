(** Lemmas for C130-C132: the market making rule in doubles. *)
From Coq Require Import SpecFloat Reals Psatz.
From Flocq Require Import Core IEEE754.BinarySingleNaN.
From Verif Require Import Base Money Money_proofs StaticTicks Double_proofs Prices Prices_proofs Quoting Quoting_spec.
Local Open Scope R_scope.
Local Existing Instances Double_proofs.Hprec Double_proofs.Hmax Double_proofs.valid64.

(** ** Doubles and the binary numbers of Flocq. *)
Lemma double_b64 x : a_double x -> exists b : b64, B2SF b = x.
Proof. intros H. exists (SF2B x H). apply B2SF_SF2B. Qed.
Lemma b64_double (b : b64) : a_double (B2SF b).
Proof. apply valid_binary_B2SF. Qed.
Lemma add_double x y : a_double x -> a_double y -> a_double (add double x y).
Proof. intros X Y. destruct (double_b64 x X) as [b <-], (double_b64 y Y) as [c <-]. cbn [add double]. rewrite add_equiv. apply b64_double. Qed.
Lemma sub_double x y : a_double x -> a_double y -> a_double (sub double x y).
Proof. intros X Y. destruct (double_b64 x X) as [b <-], (double_b64 y Y) as [c <-]. cbn [sub double]. rewrite sub_equiv. apply b64_double. Qed.
Lemma mul_double x y : a_double x -> a_double y -> a_double (mul double x y).
Proof. intros X Y. destruct (double_b64 x X) as [b <-], (double_b64 y Y) as [c <-]. cbn [mul double]. rewrite mul_equiv. apply b64_double. Qed.
Lemma div_double x y : a_double x -> a_double y -> a_double (div double x y).
Proof. intros X Y. destruct (double_b64 x X) as [b <-], (double_b64 y Y) as [c <-]. cbn [div double]. rewrite div_equiv. apply b64_double. Qed.
Lemma of_Z_double z : a_double (of_Z double z).
Proof. cbn [of_Z double]. rewrite normalize_equiv. apply b64_double. Qed.

Definition fin (x : spec_float) : bool := is_finite_SF x.
Lemma stands_fin x r : stands x r -> fin x = true.
Proof. intros (b & <- & F & _). unfold fin. now rewrite is_finite_SF_B2SF. Qed.
Lemma stands_double x r : stands x r -> a_double x.
Proof. intros (b & <- & F & _). apply b64_double. Qed.
Lemma fin_stands x : a_double x -> fin x = true -> exists r, stands x r.
Proof. intros D F. destruct (double_b64 x D) as [b <-]. unfold fin in F. rewrite is_finite_SF_B2SF in F. exists (B2R b), b. auto. Qed.
Lemma stands_unique x r s : stands x r -> stands x s -> r = s.
Proof. intros (b & <- & _ & <-) (c & E & _ & <-). f_equal. now apply B2SF_inj. Qed.
Lemma number_stands x : a_number x -> exists r, stands x r.
Proof. intros [D (s & m & e & H)]. apply fin_stands; [exact D|]. now destruct H; subst x. Qed.
Lemma le_stands x y a b : stands x a -> stands y b -> at_most x y -> a <= b.
Proof.
  intros (u & <- & Fu & <-) (v & <- & Fv & <-) H. pose proof (Bleb_correct 53 1024 u v Fu Fv) as E. unfold Bleb in E.
  unfold at_most in H. rewrite H in E. symmetry in E. revert E. case Rle_bool_spec; [auto|discriminate].
Qed.
Lemma stands_le x y a b : stands x a -> stands y b -> a <= b -> at_most x y.
Proof.
  intros (u & <- & Fu & <-) (v & <- & Fv & <-) H. pose proof (Bleb_correct 53 1024 u v Fu Fv) as E. unfold Bleb in E.
  unfold at_most. rewrite E. now apply Rle_bool_true.
Qed.
Lemma lt_stands x y a b : stands x a -> stands y b -> less x y -> a < b.
Proof.
  intros (u & <- & Fu & <-) (v & <- & Fv & <-) H. pose proof (Bltb_correct 53 1024 u v Fu Fv) as E. unfold Bltb in E.
  unfold less in H. rewrite H in E. symmetry in E. revert E. case Rlt_bool_spec; [auto|discriminate].
Qed.
Lemma zero_stands : stands zero 0.
Proof. exists (B754_zero false). repeat split; reflexivity. Qed.
Lemma one_stands : stands one 1.
Proof. apply (of_Z_exact 1). lia. Qed.
Lemma two_stands : stands two 2.
Proof. apply (of_Z_exact 2). lia. Qed.

(** ** A finite result comes from finite operands, and is the rounded real result. *)
Lemma overflow_infinite s : binary_overflow 53 1024 mode_NE s = S754_infinity s.
Proof. reflexivity. Qed.
Lemma mul_cases x y : fin (mul double x y) = true -> a_double x -> a_double y ->
  exists a b, stands x a /\ stands y b /\ stands (mul double x y) (rnd (a * b)).
Proof.
  intros F X Y. revert F. destruct (double_b64 x X) as [u <-], (double_b64 y Y) as [v <-]. cbn [mul double]. rewrite mul_equiv. intros F.
  pose proof (Bmult_correct 53 1024 Hprec Hmax mode_NE u v) as C.
  change (round_mode mode_NE) with ZnearestE in C. fold fexp64 in C. change (round radix2 fexp64 ZnearestE) with rnd in C. fold biggest in C.
  revert C. case Rlt_bool_spec; intros H C.
  - destruct C as (A & B & _). unfold fin in F. rewrite is_finite_SF_B2SF in F. pose proof F as G. rewrite B in F. apply andb_true_iff in F as [Fu Fv].
    exists (B2R u), (B2R v). repeat split; [exists u; auto|exists v; auto|exists (Bmult mode_NE u v); auto].
  - rewrite C in F. discriminate F.
Qed.
Lemma add_infinite (u v : b64) : fin (B2SF (Bplus mode_NE u v)) = true -> is_finite u = true /\ is_finite v = true.
Proof. destruct u as [[]|[]| |[] mx ex Bx], v as [[]|[]| |[] my ey By]; cbn; intros H; try discriminate H; auto. Qed.
Lemma sub_infinite (u v : b64) : fin (B2SF (Bminus mode_NE u v)) = true -> is_finite u = true /\ is_finite v = true.
Proof. destruct u as [[]|[]| |[] mx ex Bx], v as [[]|[]| |[] my ey By]; cbn; intros H; try discriminate H; auto. Qed.
Lemma add_cases x y : fin (add double x y) = true -> a_double x -> a_double y ->
  exists a b, stands x a /\ stands y b /\ stands (add double x y) (rnd (a + b)).
Proof.
  intros F X Y. revert F. destruct (double_b64 x X) as [u <-], (double_b64 y Y) as [v <-]. cbn [add double]. rewrite add_equiv. intros F.
  destruct (add_infinite u v F) as [Fu Fv]. pose proof (Bplus_correct 53 1024 Hprec Hmax mode_NE u v Fu Fv) as C.
  change (round_mode mode_NE) with ZnearestE in C. fold fexp64 in C. change (round radix2 fexp64 ZnearestE) with rnd in C. fold biggest in C.
  revert C. case Rlt_bool_spec; intros H C.
  - destruct C as (A & B & _). exists (B2R u), (B2R v). repeat split; [exists u; auto|exists v; auto|exists (Bplus mode_NE u v); auto].
  - destruct C as [C _]. rewrite C in F. discriminate F.
Qed.
Lemma sub_cases x y : fin (sub double x y) = true -> a_double x -> a_double y ->
  exists a b, stands x a /\ stands y b /\ stands (sub double x y) (rnd (a - b)).
Proof.
  intros F X Y. revert F. destruct (double_b64 x X) as [u <-], (double_b64 y Y) as [v <-]. cbn [sub double]. rewrite sub_equiv. intros F.
  destruct (sub_infinite u v F) as [Fu Fv]. pose proof (Bminus_correct 53 1024 Hprec Hmax mode_NE u v Fu Fv) as C.
  change (round_mode mode_NE) with ZnearestE in C. fold fexp64 in C. change (round radix2 fexp64 ZnearestE) with rnd in C. fold biggest in C.
  revert C. case Rlt_bool_spec; intros H C.
  - destruct C as (A & B & _). exists (B2R u), (B2R v). repeat split; [exists u; auto|exists v; auto|exists (Bminus mode_NE u v); auto].
  - destruct C as [C _]. rewrite C in F. discriminate F.
Qed.
(** Division by a number other than zero. *)
Lemma div_cases x y b : a_double x -> stands y b -> b <> 0 -> fin (div double x y) = true ->
  exists a, stands x a /\ stands (div double x y) (rnd (a / b)).
Proof.
  intros X (v & <- & Fv & <-) N. destruct (double_b64 x X) as [u <-]. cbn [div double]. rewrite div_equiv. intros F.
  pose proof (Bdiv_correct 53 1024 Hprec Hmax mode_NE u v N) as C.
  change (round_mode mode_NE) with ZnearestE in C. fold fexp64 in C. change (round radix2 fexp64 ZnearestE) with rnd in C. fold biggest in C.
  revert C. case Rlt_bool_spec; intros H C.
  - destruct C as (A & B & _). unfold fin in F. rewrite is_finite_SF_B2SF in F. pose proof F as G. rewrite B in F.
    exists (B2R u). split; [exists u; auto|exists (Bdiv mode_NE u v); auto].
  - rewrite C in F. discriminate F.
Qed.
(** The sum of 1 and a quotient of positive numbers is at least 1, if need be infinite. *)
Lemma sign_pos (b : b64) : is_finite b = true -> 0 < B2R b -> Bsign b = false.
Proof.
  destruct b as [s|s| |s m e B]; cbn; intros F H; try discriminate F; [lra|]. destruct s; [|reflexivity].
  exfalso. assert (F2R (Float radix2 (Z.neg m) e) < 0) by (apply F2R_lt_0; cbn; lia). cbn in *. lra.
Qed.
Lemma one_plus x y a b : stands x a -> stands y b -> 0 < a -> 0 < b -> at_most unit (add double one (div double x y)).
Proof.
  intros (u & <- & Fu & <-) (v & <- & Fv & <-) Ha Hb. cbn [div double]. rewrite div_equiv.
  pose proof (Bdiv_correct 53 1024 Hprec Hmax mode_NE u v ltac:(lra)) as C.
  change (round_mode mode_NE) with ZnearestE in C. fold fexp64 in C. change (round radix2 fexp64 ZnearestE) with rnd in C. fold biggest in C.
  revert C. case Rlt_bool_spec; intros H C.
  - destruct C as (A & B & _). rewrite Fu in B. set (q := Bdiv mode_NE u v) in *. cbv zeta in *.
    assert (Q : 0 <= B2R q). { rewrite A. rewrite <- rnd_0. apply rnd_le. apply Rlt_le, Rdiv_lt_0_compat; lra. }
    destruct one_stands as (w & W & Fw & Rw). rewrite <- W. change unit with one. rewrite <- W.
    cbn [add double]. rewrite add_equiv. pose proof (Bplus_correct 53 1024 Hprec Hmax mode_NE w q Fw B) as D.
    change (round_mode mode_NE) with ZnearestE in D. fold fexp64 in D. change (round radix2 fexp64 ZnearestE) with rnd in D. fold biggest in D.
    revert D. case Rlt_bool_spec; intros K D.
    + destruct D as (D1 & D2 & _). apply stands_le with (B2R w) (B2R (Bplus mode_NE w q)); [exists w; auto|exists (Bplus mode_NE w q); auto|].
      rewrite D1, Rw. apply Rle_trans with (rnd 1); [rewrite (rnd_IZR 1) by lia; lra|]. apply rnd_le. lra.
    + destruct D as [D _]. rewrite D, overflow_infinite, (sign_pos w Fw) by lra. rewrite W. reflexivity.
  - rewrite C, overflow_infinite, (sign_pos u Fu Ha), (sign_pos v Fv Hb). reflexivity.
Qed.

Lemma price_double mid : a_double (price_to_double mid).
Proof. apply div_double; apply of_Z_double. Qed.
Ltac dbl := repeat match goal with
  | H : a_double ?x |- a_double ?x => exact H
  | |- a_double (add double _ _) => apply add_double
  | |- a_double (sub double _ _) => apply sub_double
  | |- a_double (mul double _ _) => apply mul_double
  | |- a_double (div double _ _) => apply div_double
  | |- a_double (of_Z double _) => apply of_Z_double
  | |- a_double one => apply of_Z_double
  | |- a_double two => apply of_Z_double
  | |- a_double (price_to_double _) => apply price_double
  end.
(** ** Rounding to units. *)
Lemma floor_pos_neg s m e : double_floor (S754_finite s m e) = Zfloor (F2R (Float radix2 (cond_Zopp s (Z.pos m)) e)).
Proof.
  cbn [double_floor]. assert (E : (if s then Z.neg m else Z.pos m) = cond_Zopp s (Z.pos m)) by (destruct s; reflexivity). rewrite E.
  set (v := cond_Zopp s (Z.pos m)). clearbody v. clear E. destruct (Z.leb_spec 0 e) as [H|H].
  - unfold F2R. cbn [Fnum Fexp]. rewrite <- (IZR_Zpower radix2 e H), <- mult_IZR, Zfloor_IZR. reflexivity.
  - unfold F2R. cbn [Fnum Fexp]. replace e with (- - e)%Z at 2 by lia. rewrite bpow_opp, <- (IZR_Zpower radix2 (- e)) by lia.
    symmetry. apply Zfloor_div. pose proof (Z.pow_pos_nonneg 2 (- e) ltac:(lia) ltac:(lia)). change (radix2 ^ (- e))%Z with (2 ^ (- e))%Z. lia.
Qed.
Lemma floor_stands x r : stands x r -> double_floor x = Zfloor r.
Proof.
  intros (b & <- & F & <-). destruct b as [s|s| |s m e B]; try discriminate F.
  - cbn. now rewrite Zfloor_IZR.
  - cbn [B2SF B2R]. apply floor_pos_neg.
Qed.
Lemma opp_stands x r : stands x r -> stands (opposite x) (- r).
Proof.
  intros (b & <- & F & <-). exists (Bopp b). split; [|split].
  - destruct b; reflexivity.
  - now rewrite is_finite_Bopp.
  - apply B2R_Bopp.
Qed.
Lemma to_integer_inv f x z : to_integer f x = Ret z -> fin x = true /\ (fin x = true -> (forall s, f (S754_zero s) = 0%Z) -> z = f x).
Proof.
  destruct x as [s|s| |s m e]; cbn [to_integer]; intros H; try discriminate H.
  - injection H as <-. split; [reflexivity|]. intros _ E. symmetry. apply E.
  - destruct (in_i64 _) eqn:I; [|discriminate H]. injection H as <-. split; [reflexivity|auto].
Qed.
Lemma floor_inv x z : a_double x -> floor_i64 x = Ret z -> exists r, stands x r /\ z = Zfloor r.
Proof.
  intros D H. apply to_integer_inv in H as [F E]. destruct (fin_stands x D F) as [r S]. exists r. split; [exact S|].
  rewrite <- (floor_stands x r S). apply E; [exact F|reflexivity].
Qed.
Lemma ceil_inv x z : a_double x -> ceil_i64 x = Ret z -> exists r, stands x r /\ z = Zceil r.
Proof.
  intros D H. apply to_integer_inv in H as [F E]. destruct (fin_stands x D F) as [r S]. exists r. split; [exact S|].
  unfold Zceil. rewrite <- (floor_stands (opposite x) (- r) (opp_stands x r S)). apply E; [exact F|reflexivity].
Qed.
Lemma Zfloor_Zceil a b : a <= b -> (Zfloor a <= Zceil b)%Z.
Proof. intros H. apply le_IZR. pose proof (Zfloor_lb a). pose proof (Zceil_ub b). lra. Qed.
Lemma Zceil_mono a b : a <= b -> (Zceil a <= Zceil b)%Z.
Proof. intros H. unfold Zceil. assert (Zfloor (- b) <= Zfloor (- a))%Z by (apply Zfloor_le; lra). lia. Qed.

Definition units (mid : price) : R := rnd (IZR (denominator (valuation mid))).
Definition proper_price (p : price) : Prop := (1 <= denominator (valuation p) < 2 ^ 64)%Z.
Lemma u64_stands z : (0 <= z < 2 ^ 64)%Z -> stands (of_Z double z) (rnd (IZR z)).
Proof.
  intros H. apply of_Z_stands. apply small_fits. apply Rle_trans with (bpow radix2 64); [|apply bpow_le; lia].
  apply (IZR_bound z 64); lia.
Qed.
Lemma units_pos mid : proper_price mid -> 0 < units mid.
Proof.
  intros H. unfold units. apply Rlt_le_trans with (rnd 1); [rewrite (rnd_IZR 1) by lia; lra|]. apply rnd_le. apply IZR_le. unfold proper_price in H. lia.
Qed.

(** The bid and the ask before they are moved apart. *)
Lemma low_inv mid r s b : proper_price mid -> a_double r -> a_double s -> floor_i64 (low mid r s) = Ret b ->
  exists x y, stands r x /\ stands s y /\ b = Zfloor (rnd (rnd (x - rnd (y / 2)) * units mid)).
Proof.
  intros P R S H. apply floor_inv in H as (t & T & ->); [|apply mul_double; [apply sub_double; [exact R|apply div_double; [exact S|apply of_Z_double]]|apply of_Z_double]].
  destruct (mul_cases _ _ (stands_fin _ _ T) ltac:(dbl) ltac:(dbl)) as (p & q & HP & HQ & HM).
  destruct (sub_cases _ _ (stands_fin _ _ HP) ltac:(dbl) ltac:(dbl)) as (x & h & HX & HH & HS).
  destruct (div_cases s two 2 S two_stands ltac:(lra) (stands_fin _ _ HH)) as (y & HY & HD).
  exists x, y. split; [exact HX|]. split; [exact HY|].
  rewrite (stands_unique _ _ _ HH HD) in HS. rewrite (stands_unique _ _ _ HP HS) in HM.
  assert (Q : q = units mid). { apply (stands_unique _ _ _ HQ). apply u64_stands. unfold proper_price in P. lia. }
  rewrite Q in HM. now rewrite (stands_unique _ _ _ T HM).
Qed.
Lemma high_inv mid r s a : proper_price mid -> a_double r -> a_double s -> ceil_i64 (high mid r s) = Ret a ->
  exists x y, stands r x /\ stands s y /\ a = Zceil (rnd (rnd (x + rnd (y / 2)) * units mid)).
Proof.
  intros P R S H. apply ceil_inv in H as (t & T & ->); [|apply mul_double; [apply add_double; [exact R|apply div_double; [exact S|apply of_Z_double]]|apply of_Z_double]].
  destruct (mul_cases _ _ (stands_fin _ _ T) ltac:(dbl) ltac:(dbl)) as (p & q & HP & HQ & HM).
  destruct (add_cases _ _ (stands_fin _ _ HP) ltac:(dbl) ltac:(dbl)) as (x & h & HX & HH & HS).
  destruct (div_cases s two 2 S two_stands ltac:(lra) (stands_fin _ _ HH)) as (y & HY & HD).
  exists x, y. split; [exact HX|]. split; [exact HY|].
  rewrite (stands_unique _ _ _ HH HD) in HS. rewrite (stands_unique _ _ _ HP HS) in HM.
  assert (Q : q = units mid). { apply (stands_unique _ _ _ HQ). apply u64_stands. unfold proper_price in P. lia. }
  rewrite Q in HM. now rewrite (stands_unique _ _ _ T HM).
Qed.
(** What the rule comes to: both, of the numbers that the reservation price and the spread stand for. *)
Definition bid_of (mid : price) (x y : R) : Z := Zfloor (rnd (rnd (x - rnd (y / 2)) * units mid)).
Definition ask_of (mid : price) (x y : R) : Z := Zceil (rnd (rnd (x + rnd (y / 2)) * units mid)).
Lemma rounded_cases asserts mid r s : proper_price mid -> a_double r -> a_double s ->
  rounded asserts mid r s = Undefined \/
  exists x y, stands r x /\ stands s y /\
    let b := bid_of mid x y in let a := ask_of mid x y in
    let b' := (if b =? a then b - 1 else b)%Z in let a' := (if b =? a then a + 1 else a)%Z in
    rounded asserts mid r s = if (asserts && negb (b' <? a')%Z)%bool then Abort else Value (mk_price b' (valuation mid), mk_price a' (valuation mid)).
Proof.
  intros P R S. unfold rounded. destruct (floor_i64 (low mid r s)) as [b| |] eqn:B; try (now left).
  destruct (ceil_i64 (high mid r s)) as [a| |] eqn:A; try (now left).
  destruct (low_inv _ _ _ _ P R S B) as (x & y & X & Y & Eb). destruct (high_inv _ _ _ _ P R S A) as (x2 & y2 & X2 & Y2 & Ea).
  rewrite (stands_unique _ _ _ X2 X) in Ea. rewrite (stands_unique _ _ _ Y2 Y) in Ea.
  fold (bid_of mid x y) in Eb. fold (ask_of mid x y) in Ea. unfold apart. subst b a.
  destruct (bid_of mid x y =? ask_of mid x y)%Z eqn:E.
  - destruct (in_i64 _ && in_i64 _)%bool; [|now left]. right. exists x, y. rewrite E. auto.
  - right. exists x, y. rewrite E. auto.
Qed.
Lemma bid_le_ask mid x y : proper_price mid -> 0 <= y -> (bid_of mid x y <= ask_of mid x y)%Z.
Proof.
  intros P Y. apply Zfloor_Zceil. apply rnd_le. apply Rmult_le_compat_r; [left; now apply units_pos|].
  apply rnd_le. assert (0 <= rnd (y / 2)) by (rewrite <- rnd_0; apply rnd_le; lra). lra.
Qed.
Lemma bid_mono mid x x' y y' : proper_price mid -> x <= x' -> y' <= y -> (bid_of mid x y <= bid_of mid x' y')%Z.
Proof.
  intros P X Y. apply Zfloor_le. apply rnd_le. apply Rmult_le_compat_r; [left; now apply units_pos|].
  apply rnd_le. assert (rnd (y' / 2) <= rnd (y / 2)) by (apply rnd_le; lra). lra.
Qed.
Lemma ask_mono mid x x' y y' : proper_price mid -> x <= x' -> y <= y' -> (ask_of mid x y <= ask_of mid x' y')%Z.
Proof.
  intros P X Y. apply Zceil_mono. apply rnd_le. apply Rmult_le_compat_r; [left; now apply units_pos|].
  apply rnd_le. assert (rnd (y / 2) <= rnd (y' / 2)) by (apply rnd_le; lra). lra.
Qed.

(** ** The reservation price and the spread. *)
Lemma reservation_double mid nl ns t s g : a_double t -> a_double s -> a_double g -> a_double (reservation mid nl ns t s g).
Proof. intros T S G. unfold reservation. dbl. Qed.
Lemma spread_double log t s g k : logarithm log -> a_double t -> a_double s -> a_double g -> a_double k -> a_double (spread log t s g k).
Proof.
  intros (L & _) T S G K. unfold spread. apply add_double; [dbl|].
  apply mul_double; [apply div_double; [apply of_Z_double|exact G]|]. apply L. apply add_double; [apply of_Z_double|]. now apply div_double.
Qed.
Lemma rnd_pos a : 0 <= a -> 0 <= rnd a.
Proof. intros H. rewrite <- rnd_0. now apply rnd_le. Qed.
(** [1 - theta] *)
Lemma remaining t y : stands t y -> 0 <= y <= 1 -> stands (sub double one t) (rnd (1 - y)) /\ 0 <= rnd (1 - y) <= 1.
Proof.
  intros T Y. split.
  - apply sub_stands; [apply one_stands|exact T|]. apply small_fits. apply Rle_trans with (bpow radix2 0); [|apply bpow_le; lia]. cbn. apply Rabs_le. lra.
  - split; [apply rnd_pos; lra|]. rewrite <- (rnd_IZR 1) at 2 by lia. apply rnd_le. lra.
Qed.
Lemma spread_inv log t s g k y : logarithm log -> positive g -> positive s -> positive k -> in_session t -> stands (spread log t s g k) y ->
  exists vt vs vg z, stands t vt /\ stands s vs /\ stands g vg /\ 0 <= vt <= 1 /\ 0 < vs /\ 0 < vg /\ 0 <= z /\
    stands (mul double (div double two g) (log (add double one (div double g k)))) z /\
    y = rnd (rnd (rnd (vg * rnd (vs * vs)) * rnd (1 - vt)) + z).
Proof.
  intros L [Gn Gp] [Sn Sp] [Kn Kp] (Tn & T0 & T1) H. destruct L as (L1 & L2 & L3).
  destruct (number_stands g Gn) as [vg G], (number_stands s Sn) as [vs S], (number_stands k Kn) as [vk K], (number_stands t Tn) as [vt T].
  pose proof (lt_stands _ _ _ _ zero_stands G Gp) as PG. pose proof (lt_stands _ _ _ _ zero_stands S Sp) as PS. pose proof (lt_stands _ _ _ _ zero_stands K Kp) as PK.
  pose proof (le_stands _ _ _ _ zero_stands T T0) as PT0. pose proof (le_stands _ _ _ _ T one_stands T1) as PT1.
  assert (DG := proj1 Gn). assert (DS := proj1 Sn). assert (DK := proj1 Kn). assert (DT := proj1 Tn).
  assert (DL : a_double (log (add double one (div double g k)))) by (apply L1, add_double; [apply of_Z_double|now apply div_double]).
  unfold spread in H.
  destruct (add_cases _ _ (stands_fin _ _ H) ltac:(dbl) ltac:(dbl)) as (p & z & HP & HZ & HA).
  exists vt, vs, vg, z. do 4 (split; [first [assumption|split; assumption]|]). split; [exact PS|]. split; [exact PG|].
  destruct (mul_cases _ _ (stands_fin _ _ HZ) ltac:(dbl) ltac:(dbl)) as (q & l & HQ & HL & HM).
  destruct (div_cases two g vg ltac:(apply of_Z_double) G ltac:(lra) (stands_fin _ _ HQ)) as (w & HW & HD).
  rewrite (stands_unique _ _ _ HW two_stands) in HD. rewrite (stands_unique _ _ _ HQ HD) in HM.
  assert (PL : 0 <= l). { apply (le_stands _ _ _ _ zero_stands HL). apply L2. eapply one_plus; eassumption. }
  assert (Pq : 0 <= rnd (2 / vg)) by (apply rnd_pos; apply Rlt_le, Rdiv_lt_0_compat; lra).
  split. { rewrite (stands_unique _ _ _ HZ HM). apply rnd_pos. now apply Rmult_le_pos. }
  split; [exact HZ|]. rewrite (stands_unique _ _ _ H HA). f_equal. f_equal.
  destruct (mul_cases _ _ (stands_fin _ _ HP) ltac:(dbl) ltac:(dbl)) as (c & d & HC & HDD & HE).
  rewrite (stands_unique _ _ _ HP HE). destruct (remaining t vt T ltac:(lra)) as [HR _]. rewrite (stands_unique _ _ _ HDD HR). f_equal. f_equal.
  destruct (mul_cases _ _ (stands_fin _ _ HC) ltac:(dbl) ltac:(dbl)) as (c1 & c2 & HC1 & HC2 & HC3).
  rewrite (stands_unique _ _ _ HC HC3), (stands_unique _ _ _ HC1 G). f_equal. f_equal.
  destruct (mul_cases _ _ (stands_fin _ _ HC2) ltac:(dbl) ltac:(dbl)) as (e1 & e2 & HE1 & HE2 & HE3).
  rewrite (stands_unique _ _ _ HC2 HE3), (stands_unique _ _ _ HE1 S), (stands_unique _ _ _ HE2 S). reflexivity.
Qed.
Lemma spread_nonneg log t s g k y : logarithm log -> positive g -> positive s -> positive k -> in_session t -> stands (spread log t s g k) y -> 0 <= y.
Proof.
  intros L G S K T H. destruct (spread_inv _ _ _ _ _ _ L G S K T H) as (vt & vs & vg & z & _ & _ & _ & Pt & Ps & Pg & Pz & _ & ->).
  apply rnd_pos. apply Rplus_le_le_0_compat; [|exact Pz]. apply rnd_pos. apply Rmult_le_pos; [apply rnd_pos, Rmult_le_pos; [lra|apply rnd_pos; nra]|apply rnd_pos; lra].
Qed.
(** More volatility or more time left: a wider spread. *)
Lemma spread_mono log t t' s s' g k y y' : logarithm log -> positive g -> positive s -> positive s' -> positive k -> in_session t -> in_session t' ->
  at_most s s' -> at_most t' t -> stands (spread log t s g k) y -> stands (spread log t' s' g k) y' -> y <= y'.
Proof.
  intros L G S S' K T T' LS LT H H'.
  destruct (spread_inv _ _ _ _ _ _ L G S K T H) as (vt & vs & vg & z & HT & HS & HG & Pt & Ps & Pg & Pz & HZ & ->).
  destruct (spread_inv _ _ _ _ _ _ L G S' K T' H') as (vt' & vs' & vg' & z' & HT' & HS' & HG' & Pt' & Ps' & Pg' & Pz' & HZ' & ->).
  rewrite (stands_unique _ _ _ HZ' HZ), (stands_unique _ _ _ HG' HG). apply rnd_le. apply Rplus_le_compat_r. apply rnd_le.
  pose proof (le_stands _ _ _ _ HS HS' LS). pose proof (le_stands _ _ _ _ HT' HT LT).
  apply Rmult_le_compat.
  - apply rnd_pos, Rmult_le_pos; [lra|apply rnd_pos; nra].
  - apply rnd_pos. lra.
  - apply rnd_le. apply Rmult_le_compat_l; [lra|]. apply rnd_le. nra.
  - apply rnd_le. lra.
Qed.
Lemma reservation_inv mid nl ns t s g x : (0 <= nl < 2 ^ 64)%Z -> (0 <= ns < 2 ^ 64)%Z -> positive g -> positive s -> in_session t ->
  stands (reservation mid nl ns t s g) x ->
  exists p vt vs vg, stands (price_to_double mid) p /\ stands t vt /\ stands s vs /\ stands g vg /\ 0 <= vt <= 1 /\ 0 < vs /\ 0 < vg /\
    x = rnd (p - rnd (rnd (rnd (rnd (rnd (rnd (IZR nl) - rnd (IZR ns)) * vg) * vs) * vs) * rnd (1 - vt))).
Proof.
  intros Hl Hs [Gn Gp] [Sn Sp] (Tn & T0 & T1) H.
  destruct (number_stands g Gn) as [vg G], (number_stands s Sn) as [vs S], (number_stands t Tn) as [vt T].
  pose proof (lt_stands _ _ _ _ zero_stands G Gp) as PG. pose proof (lt_stands _ _ _ _ zero_stands S Sp) as PS.
  pose proof (le_stands _ _ _ _ zero_stands T T0) as PT0. pose proof (le_stands _ _ _ _ T one_stands T1) as PT1.
  assert (DG := proj1 Gn). assert (DS := proj1 Sn). assert (DT := proj1 Tn). unfold reservation in H.
  destruct (sub_cases _ _ (stands_fin _ _ H) ltac:(dbl) ltac:(dbl)) as (p & q & HP & HQ & HH).
  exists p, vt, vs, vg. do 5 (split; [first [assumption|split; assumption]|]). split; [exact PS|]. split; [exact PG|].
  rewrite (stands_unique _ _ _ H HH). f_equal. f_equal.
  destruct (mul_cases _ _ (stands_fin _ _ HQ) ltac:(dbl) ltac:(dbl)) as (a1 & b1 & A1 & B1 & C1).
  rewrite (stands_unique _ _ _ HQ C1). destruct (remaining t vt T ltac:(lra)) as [HR _]. rewrite (stands_unique _ _ _ B1 HR). f_equal. f_equal.
  destruct (mul_cases _ _ (stands_fin _ _ A1) ltac:(dbl) ltac:(dbl)) as (a2 & b2 & A2 & B2 & C2).
  rewrite (stands_unique _ _ _ A1 C2), (stands_unique _ _ _ B2 S). f_equal. f_equal.
  destruct (mul_cases _ _ (stands_fin _ _ A2) ltac:(dbl) ltac:(dbl)) as (a3 & b3 & A3 & B3 & C3).
  rewrite (stands_unique _ _ _ A2 C3), (stands_unique _ _ _ B3 S). f_equal. f_equal.
  destruct (mul_cases _ _ (stands_fin _ _ A3) ltac:(dbl) ltac:(dbl)) as (a4 & b4 & A4 & B4 & C4).
  rewrite (stands_unique _ _ _ A3 C4), (stands_unique _ _ _ B4 G). f_equal. f_equal.
  destruct (sub_cases _ _ (stands_fin _ _ A4) ltac:(dbl) ltac:(dbl)) as (a5 & b5 & A5 & B5 & C5).
  rewrite (stands_unique _ _ _ A4 C5), (stands_unique _ _ _ A5 (u64_stands nl Hl)), (stands_unique _ _ _ B5 (u64_stands ns Hs)). reflexivity.
Qed.
(** A larger inventory: a lower reservation price. *)
Lemma reservation_mono mid nl ns nl' ns' t s g x x' : (0 <= nl <= nl')%Z -> (nl' < 2 ^ 64)%Z -> (0 <= ns' <= ns)%Z -> (ns < 2 ^ 64)%Z ->
  positive g -> positive s -> in_session t ->
  stands (reservation mid nl ns t s g) x -> stands (reservation mid nl' ns' t s g) x' -> x' <= x.
Proof.
  intros Hl Hl' Hs Hs' G S T H H'.
  assert (B1 : (0 <= nl < 2 ^ 64)%Z) by lia. assert (B2 : (0 <= ns < 2 ^ 64)%Z) by lia. assert (B3 : (0 <= nl' < 2 ^ 64)%Z) by lia. assert (B4 : (0 <= ns' < 2 ^ 64)%Z) by lia.
  destruct (reservation_inv _ _ _ _ _ _ _ B1 B2 G S T H) as (p & vt & vs & vg & HP & HT & HS & HG & Pt & Ps & Pg & ->).
  destruct (reservation_inv _ _ _ _ _ _ _ B3 B4 G S T H') as (p' & vt' & vs' & vg' & HP' & HT' & HS' & HG' & _ & _ & _ & ->).
  rewrite (stands_unique _ _ _ HP' HP), (stands_unique _ _ _ HT' HT), (stands_unique _ _ _ HS' HS), (stands_unique _ _ _ HG' HG).
  apply rnd_le. apply Rplus_le_compat_l. apply Ropp_le_contravar. apply rnd_le. apply Rmult_le_compat_r; [apply rnd_pos; lra|].
  apply rnd_le, Rmult_le_compat_r; [lra|]. apply rnd_le, Rmult_le_compat_r; [lra|]. apply rnd_le, Rmult_le_compat_r; [lra|]. apply rnd_le.
  assert (rnd (IZR nl) <= rnd (IZR nl')) by (apply rnd_le, IZR_le; lia). assert (rnd (IZR ns') <= rnd (IZR ns)) by (apply rnd_le, IZR_le; lia). lra.
Qed.
(** With as much bought as sold it is the middle price, whatever the other arguments. *)
Lemma rnd_idem a : rnd (rnd a) = rnd a.
Proof. unfold rnd. apply round_generic; [typeclasses eauto|]. apply generic_format_round; typeclasses eauto. Qed.
Lemma stands_rnd x a : stands x a -> rnd a = a.
Proof. intros (b & _ & _ & <-). apply round_generic; [typeclasses eauto|]. apply generic_format_B2R. Qed.
Lemma reservation_balanced mid n t s g x : (0 <= n < 2 ^ 64)%Z -> positive g -> positive s -> in_session t ->
  stands (reservation mid n n t s g) x -> stands (price_to_double mid) x.
Proof.
  intros Hn G S T H. destruct (reservation_inv _ _ _ _ _ _ _ Hn Hn G S T H) as (p & vt & vs & vg & HP & _ & _ & _ & _ & _ & _ & ->).
  replace (rnd (IZR n) - rnd (IZR n)) with 0 by lra. rewrite rnd_0, Rmult_0_l, rnd_0, Rmult_0_l, rnd_0, Rmult_0_l, rnd_0, Rmult_0_l, rnd_0, Rminus_0_r.
  now rewrite (stands_rnd _ _ HP).
Qed.
(** ** The rule. *)
Section Rule.
Context (log : spec_float -> spec_float) (L : logarithm log).
Implicit Types (mid : price).
Lemma passed_checks asserts mid nl ns t s g k : positive s -> in_session t ->
  avellaneda_stoikov log asserts mid nl ns t s g k = rounded asserts mid (reservation mid nl ns t s g) (spread log t s g k).
Proof.
  intros [_ S] (_ & T0 & T1). unfold avellaneda_stoikov. change (of_Z double 0) with zero. rewrite S, T0. change one with unit. rewrite T1. cbn. now rewrite !andb_false_r.
Qed.
Lemma rule_cases asserts mid nl ns t s g k : proper_price mid -> positive g -> positive s -> positive k -> in_session t ->
  avellaneda_stoikov log asserts mid nl ns t s g k = Undefined \/
  exists x y, stands (reservation mid nl ns t s g) x /\ stands (spread log t s g k) y /\ 0 <= y /\
    let b := bid_of mid x y in let a := ask_of mid x y in
    let b' := (if b =? a then b - 1 else b)%Z in let a' := (if b =? a then a + 1 else a)%Z in
    (b <= a)%Z /\ (b' < a')%Z /\
    avellaneda_stoikov log asserts mid nl ns t s g k = Value (mk_price b' (valuation mid), mk_price a' (valuation mid)).
Proof.
  intros P G S K T. rewrite passed_checks by assumption.
  assert (DR : a_double (reservation mid nl ns t s g)) by (apply reservation_double; [apply T|apply S|apply G]).
  assert (DS : a_double (spread log t s g k)) by (apply spread_double; [exact L|apply T|apply S|apply G|apply K]).
  destruct (rounded_cases asserts mid _ _ P DR DS) as [E|(x & y & X & Y & E)]; [now left|right]. exists x, y. split; [exact X|]. split; [exact Y|].
  pose proof (spread_nonneg _ _ _ _ _ _ L G S K T Y) as Y0. split; [exact Y0|]. pose proof (bid_le_ask mid x y P Y0) as BA. cbv zeta in *. split; [exact BA|].
  assert (LT : ((if bid_of mid x y =? ask_of mid x y then bid_of mid x y - 1 else bid_of mid x y) < (if bid_of mid x y =? ask_of mid x y then ask_of mid x y + 1 else ask_of mid x y))%Z)
    by (destruct (Z.eqb_spec (bid_of mid x y) (ask_of mid x y)); lia).
  split; [exact LT|]. rewrite E. rewrite (proj2 (Z.ltb_lt _ _) LT). now rewrite andb_false_r.
Qed.
Lemma centre v d : (Z.abs v < 2 ^ 52)%Z -> (1 <= d <= 2 ^ 53)%Z -> IZR v - / 2 <= rnd (rnd (IZR v / IZR d) * IZR d) <= IZR v + / 2.
Proof.
  intros Hv Hd. destruct (Z.lt_trichotomy v 0) as [N|[N|N]].
  - pose proof (roundtrip_pos (- v) d ltac:(lia) Hd) as R. rewrite opp_IZR in R.
    replace (rnd (- IZR v / IZR d) * IZR d) with (- (rnd (IZR v / IZR d) * IZR d)) in R.
    + rewrite rnd_opp in R. lra.
    + unfold Rdiv. rewrite Ropp_mult_distr_l_reverse, rnd_opp. lra.
  - subst v. unfold Rdiv. rewrite Rmult_0_l, rnd_0, Rmult_0_l, rnd_0. lra.
  - apply roundtrip_pos; lia.
Qed.
Lemma around mid x y : (Z.abs (value mid) < 2 ^ 52)%Z -> (1 <= denominator (valuation mid) <= 2 ^ 53)%Z -> 0 <= y ->
  stands (price_to_double mid) x -> (bid_of mid x y <= value mid <= ask_of mid x y)%Z.
Proof.
  intros V D Y X. pose proof (stands_unique _ _ _ X (price_double_stands mid ltac:(lia) D)) as E. pose proof (centre (value mid) _ V D) as C.
  assert (U : units mid = IZR (denominator (valuation mid))) by (unfold units; apply rnd_IZR; lia). rewrite <- E, <- U in C.
  assert (P : 0 < units mid) by (apply units_pos; unfold proper_price; lia).
  assert (H : 0 <= rnd (y / 2)) by (apply rnd_pos; lra). pose proof (stands_rnd _ _ X) as Rx. split.
  - apply Z.lt_succ_r. apply lt_IZR. unfold bid_of. rewrite succ_IZR.
    apply Rle_lt_trans with (1 := Zfloor_lb _). apply Rle_lt_trans with (rnd (x * units mid)); [|lra].
    apply rnd_le. apply Rmult_le_compat_r; [lra|]. rewrite <- Rx at 2. apply rnd_le. lra.
  - apply Z.lt_succ_r. apply lt_IZR. rewrite succ_IZR. unfold ask_of.
    apply Rlt_le_trans with (rnd (x * units mid) + 1); [lra|]. apply Rplus_le_compat_r. apply Rle_trans with (2 := Zceil_ub _).
    apply rnd_le. apply Rmult_le_compat_r; [lra|]. rewrite <- Rx at 1. apply rnd_le. lra.
Qed.
(** Moving apart keeps the order of quotes. *)
Lemma apart_down b a b' a' : (b <= a)%Z -> (b' <= a')%Z -> (b' <= b)%Z -> (a' <= a)%Z ->
  ((if b' =? a' then b' - 1 else b') <= (if b =? a then b - 1 else b))%Z /\ ((if b' =? a' then a' + 1 else a') <= (if b =? a then a + 1 else a))%Z.
Proof. intros. destruct (Z.eqb_spec b a), (Z.eqb_spec b' a'); lia. Qed.
Lemma apart_wide b a b' a' m : (b <= m <= a)%Z -> (b' <= b)%Z -> (a <= a')%Z ->
  let b1 := (if b =? a then b - 1 else b)%Z in let a1 := (if b =? a then a + 1 else a)%Z in
  ((if b' =? a' then b' - 1 else b') <= b1 /\ a1 <= (if b' =? a' then a' + 1 else a'))%Z \/ (b1 = m - 1 /\ a1 = m + 1)%Z.
Proof. intros. subst b1 a1. destruct (Z.eqb_spec b a), (Z.eqb_spec b' a'); lia. Qed.
End Rule.

(** ** Where the rule is defined. *)
Definition within (x : spec_float) (i : Z) : Prop := exists r, stands x r /\ Rabs r <= bpow radix2 i.
Lemma within_weaken x i j : within x i -> (i <= j)%Z -> within x j.
Proof. intros (r & S & B) H. exists r. split; [exact S|]. apply Rle_trans with (1 := B). now apply bpow_le. Qed.
Lemma within_op x a i : (-1000 <= i <= 1000)%Z -> Rabs a <= bpow radix2 i -> (Rabs (rnd a) < biggest -> stands x (rnd a)) -> within x i.
Proof.
  intros I A H. exists (rnd a). split; [|apply rnd_bound; [lia|exact A]]. apply H. apply small_fits. apply Rle_trans with (1 := A). apply bpow_le. lia.
Qed.
Lemma mul_within x y i j : (-1000 <= i + j <= 1000)%Z -> within x i -> within y j -> within (mul double x y) (i + j).
Proof.
  intros I (a & X & A) (b & Y & B). apply within_op with (a * b); [exact I| |now apply mul_stands].
  rewrite Rabs_mult, bpow_plus. apply Rmult_le_compat; auto using Rabs_pos.
Qed.
Lemma bpow_double i : bpow radix2 i + bpow radix2 i = bpow radix2 (i + 1).
Proof. rewrite bpow_plus. change (bpow radix2 1) with 2. lra. Qed.
Lemma add_within x y i : (-1000 <= i < 1000)%Z -> within x i -> within y i -> within (add double x y) (i + 1).
Proof.
  intros I (a & X & A) (b & Y & B). apply within_op with (a + b); [lia| |now apply add_stands].
  rewrite <- bpow_double. apply Rle_trans with (1 := Rabs_triang a b). lra.
Qed.
Lemma sub_within x y i : (-1000 <= i < 1000)%Z -> within x i -> within y i -> within (sub double x y) (i + 1).
Proof.
  intros I (a & X & A) (b & Y & B). apply within_op with (a - b); [lia| |now apply sub_stands].
  rewrite <- bpow_double. unfold Rminus. apply Rle_trans with (1 := Rabs_triang a (- b)). rewrite Rabs_Ropp. lra.
Qed.
Lemma div_within x y b i j : (-1000 <= i + j <= 1000)%Z -> within x i -> stands y b -> bpow radix2 (- j) <= Rabs b -> within (div double x y) (i + j).
Proof.
  intros I (a & X & A) Y B. pose proof (bpow_gt_0 radix2 (- j)) as P. assert (N : b <> 0) by (intros ->; rewrite Rabs_R0 in B; lra).
  apply within_op with (a / b); [exact I| |now apply div_stands]. unfold Rdiv. rewrite Rabs_mult, Rabs_inv, bpow_plus.
  apply Rmult_le_compat; [apply Rabs_pos|left; apply Rinv_0_lt_compat; lra|exact A|]. replace j with (- - j)%Z by lia. rewrite bpow_opp. apply Rinv_le; [exact P|exact B].
Qed.
Lemma of_Z_within z n : (0 <= n <= 63)%Z -> (Z.abs z <= 2 ^ n)%Z -> within (of_Z double z) n.
Proof.
  intros Hn H. apply within_op with (IZR z); [lia|apply IZR_bound; lia|]. apply of_Z_stands.
Qed.
Lemma floor_within x : a_double x -> within x 62 -> exists z, floor_i64 x = Ret z /\ (- 2 ^ 62 <= z <= 2 ^ 62)%Z.
Proof.
  intros D (r & S & B). assert (F := stands_fin _ _ S). exists (Zfloor r). apply Rabs_le_inv in B. change (bpow radix2 62) with (IZR (2 ^ 62)) in B. rewrite <- opp_IZR in B.
  assert (Z : (- 2 ^ 62 <= Zfloor r <= 2 ^ 62)%Z) by (split; [apply Zfloor_lub; lra|apply le_IZR; pose proof (Zfloor_lb r); lra]). split; [|exact Z].
  unfold floor_i64, to_integer. pose proof (floor_stands x r S) as E. destruct x as [s|s| |s m e]; try discriminate F.
  - cbn in E. now rewrite <- E.
  - rewrite E. assert (I : in_i64 (Zfloor r) = true) by (unfold in_i64; lia). now rewrite I.
Qed.
Lemma ceil_within x : a_double x -> within x 62 -> exists z, ceil_i64 x = Ret z /\ (- 2 ^ 62 <= z <= 2 ^ 62)%Z.
Proof.
  intros D (r & S & B). assert (F := stands_fin _ _ S). exists (Zceil r). apply Rabs_le_inv in B. change (bpow radix2 62) with (IZR (2 ^ 62)) in B. rewrite <- opp_IZR in B.
  assert (Z : (- 2 ^ 62 <= Zceil r <= 2 ^ 62)%Z) by (split; [apply le_IZR; pose proof (Zceil_ub r); lra|apply Zceil_glb; lra]). split; [|exact Z].
  unfold ceil_i64, to_integer. pose proof (floor_stands (opposite x) (- r) (opp_stands x r S)) as E. destruct x as [s|s| |s m e]; try discriminate F.
  - cbn in E. unfold Zceil. now rewrite <- E.
  - rewrite E. fold (Zceil r). assert (I : in_i64 (Zceil r) = true) by (unfold in_i64; lia). now rewrite I.
Qed.
(** Parameters from 2^-8 to 2^8. *)
Lemma moderate_stands x : moderate x -> exists r, stands x r /\ bpow radix2 (-8) <= r <= bpow radix2 8.
Proof.
  intros (N & A & B). destruct (number_stands x N) as [r S]. exists r. split; [exact S|].
  assert (H8 : stands (of_Z double 256) 256) by (apply of_Z_exact; lia).
  assert (L8 : stands (div double (of_Z double 1) (of_Z double 256)) (rnd (1 / 256))) by (apply div_stands; [apply (of_Z_exact 1); lia|exact H8|lra|apply small_fits; apply Rle_trans with (bpow radix2 0); [cbn; apply Rabs_le; lra|apply bpow_le; lia]]).
  assert (E8 : 1 / 256 = IZR 1 * bpow radix2 (-8)) by (change (bpow radix2 (-8)) with (/ 256); lra). rewrite E8, rnd_exact, Rmult_1_l in L8 by lia.
  split; [exact (le_stands _ _ _ _ L8 S A)|]. change (bpow radix2 8) with 256. exact (le_stands _ _ _ _ S H8 B).
Qed.
Lemma moderate_within x : moderate x -> within x 8.
Proof. intros M. destruct (moderate_stands x M) as (r & S & B). exists r. split; [exact S|]. pose proof (bpow_gt_0 radix2 (-8)). rewrite Rabs_pos_eq by lra. lra. Qed.
Lemma moderate_positive x : moderate x -> positive x.
Proof.
  intros M. destruct (moderate_stands x M) as (r & S & B). split; [apply M|]. pose proof (bpow_gt_0 radix2 (-8)). destruct S as (b & <- & F & <-).
  pose proof (sign_pos b F ltac:(lra)) as Sg. destruct b as [s|s| |s m e Be]; try discriminate F; cbn in Sg; subst; [cbn [B2R] in B; lra|reflexivity].
Qed.
Lemma rule_defined log asserts mid nl ns t s g k : logarithm log -> (forall x, at_most unit x -> at_most (log x) x) ->
  (Z.abs (value mid) <= 2 ^ 50)%Z -> (1 <= denominator (valuation mid) <= 2 ^ 10)%Z -> (0 <= nl <= 2 ^ 20)%Z -> (0 <= ns <= 2 ^ 20)%Z ->
  moderate g -> moderate s -> moderate k -> in_session t -> avellaneda_stoikov log asserts mid nl ns t s g k <> Undefined.
Proof.
  intros L Lx V D Nl Ns G S K T. assert (PG := moderate_positive g G). assert (PS := moderate_positive s S). assert (PK := moderate_positive k K).
  rewrite passed_checks by assumption.
  destruct (moderate_stands g G) as (vg & Sg & Bg). destruct (moderate_stands k K) as (vk & Sk & Bk).
  pose proof (bpow_gt_0 radix2 (-8)) as P8.
  assert (WT : within (sub double one t) 0).
  { destruct T as (Tn & T0 & T1). destruct (number_stands t Tn) as [vt HT]. pose proof (le_stands _ _ _ _ zero_stands HT T0). pose proof (le_stands _ _ _ _ HT one_stands T1).
    destruct (remaining t vt HT ltac:(lra)) as [A B]. eexists. split; [exact A|]. change (bpow radix2 0) with 1. rewrite Rabs_pos_eq; lra. }
  assert (WP : within (price_to_double mid) 50).
  { replace 50%Z with (50 + 0)%Z by lia. apply div_within with (IZR (denominator (valuation mid))); [lia|apply of_Z_within; lia|apply of_Z_exact; lia|].
    change (bpow radix2 (- 0)) with 1. rewrite Rabs_pos_eq; apply IZR_le; lia. }
  assert (WD : within (of_Z double (denominator (valuation mid))) 10) by (apply of_Z_within; lia).
  assert (WS := moderate_within s S). assert (WG := moderate_within g G). assert (WK := moderate_within k K).
  assert (WR : within (reservation mid nl ns t s g) 51).
  { unfold reservation. apply (sub_within _ _ 50); [lia|exact WP|]. apply within_weaken with (20 + 1 + 8 + 8 + 8 + 0)%Z; [|lia].
    repeat (apply mul_within; [lia| |assumption]). apply sub_within; [lia| |]; apply of_Z_within; lia. }
  assert (WQ : within (div double g k) 16) by (apply (div_within g k vk 8 8); [lia|exact WG|exact Sk|cbn [Z.opp]; rewrite Rabs_pos_eq; lra]).
  assert (WL : within (log (add double one (div double g k))) 17).
  { assert (WA : within (add double one (div double g k)) 17) by (apply (add_within _ _ 16); [lia|apply of_Z_within; lia|exact WQ]).
    assert (U : at_most unit (add double one (div double g k))) by (apply one_plus with vg vk; [exact Sg|exact Sk|lra|lra]).
    destruct WA as (a & A & Ba). pose proof (Lx _ U) as Lu. destruct L as (L1 & L2 & _). specialize (L2 _ U).
    destruct (double_b64 (log (add double one (div double g k)))) as [w W]; [apply L1; exact (stands_double _ _ A)|].
    assert (Fw : fin (log (add double one (div double g k))) = true).
    { revert Lu L2 A. destruct (log (add double one (div double g k))) as [sg|sg| |sg m e]; intros Lu L2 A; try reflexivity.
      - destruct sg; [discriminate L2|]. pose proof (stands_fin _ _ A) as Fa. exfalso. unfold at_most in Lu. destruct (add double one (div double g k)) as [z|z| |z m' e']; try discriminate Fa; discriminate Lu.
      - discriminate Lu. }
    destruct (fin_stands _ (eq_ind _ a_double (b64_double w) _ W) Fw) as [l Sl]. exists l. split; [exact Sl|].
    pose proof (le_stands _ _ _ _ zero_stands Sl L2). pose proof (le_stands _ _ _ _ Sl A Lu). apply Rabs_le_inv in Ba. rewrite Rabs_pos_eq; lra. }
  assert (WSp : within (spread log t s g k) 27).
  { unfold spread. apply (add_within _ _ 26); [lia| |].
    - apply within_weaken with (8 + (8 + 8) + 0)%Z; [|lia]. apply mul_within; [lia| |exact WT]. apply mul_within; [lia|exact WG|]. apply mul_within; [lia|exact WS|exact WS].
    - apply (mul_within _ _ 9 17); [lia| |exact WL]. apply (div_within two g vg 1 8); [lia|apply of_Z_within; lia|exact Sg|cbn [Z.opp]; rewrite Rabs_pos_eq; lra]. }
  assert (WH : within (div double (spread log t s g k) two) 51).
  { apply within_weaken with (27 + 0)%Z; [|lia]. apply div_within with 2; [lia|exact WSp|exact two_stands|]. change (bpow radix2 (- 0)) with 1. rewrite Rabs_pos_eq; lra. }
  assert (DR : a_double (reservation mid nl ns t s g)) by (destruct WR as (r & A & _); exact (stands_double _ _ A)).
  assert (DS : a_double (spread log t s g k)) by (destruct WSp as (r & A & _); exact (stands_double _ _ A)).
  destruct (floor_within (low mid (reservation mid nl ns t s g) (spread log t s g k))) as (b & Eb & Bb).
  { unfold low. dbl. }
  { unfold low. apply (mul_within _ _ 52 10); [lia| |exact WD]. now apply (sub_within _ _ 51). }
  destruct (ceil_within (high mid (reservation mid nl ns t s g) (spread log t s g k))) as (a & Ea & Ba).
  { unfold high. dbl. }
  { unfold high. apply (mul_within _ _ 52 10); [lia| |exact WD]. now apply (add_within _ _ 51). }
  unfold rounded. rewrite Eb, Ea. unfold apart.
  assert (I : (in_i64 (a + 1) && in_i64 (b - 1))%bool = true) by (unfold in_i64; lia). rewrite I.
  intros E. destruct (b =? a)%Z; cbv beta iota in E; match type of E with (if ?c then _ else _) = _ => destruct c end; discriminate E.
Qed.
