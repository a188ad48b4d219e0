From Coq Require Import SpecFloat QArith Qround Qabs Lqa.
From Verif Require Import Base StaticTicks Fractions Fractions_spec.
From Coq Require Import ZifyBool ZifyNat.
Local Open Scope Z_scope.

(** ** Rounding *)
Lemma nearest_range f : (inject_Z (nearest f) - (1 # 2) <= f)%Q /\ (f < inject_Z (nearest f) + (1 # 2))%Q.
Proof.
  unfold nearest. pose proof (Qfloor_le (f + (1 # 2))) as H1. pose proof (Qlt_floor (f + (1 # 2))) as H2.
  rewrite inject_Z_plus in H2. change (inject_Z 1) with (1 # 1)%Q in H2. split; lra.
Qed.
Lemma nearest_unique f z : (inject_Z z - (1 # 2) <= f)%Q -> (f < inject_Z z + (1 # 2))%Q -> nearest f = z.
Proof.
  intros H1 H2. destruct (nearest_range f) as [H3 H4].
  assert (A : (inject_Z (nearest f) < inject_Z (z + 1))%Q) by (rewrite inject_Z_plus; change (inject_Z 1) with (1 # 1)%Q; lra).
  assert (B : (inject_Z z < inject_Z (nearest f + 1))%Q) by (rewrite inject_Z_plus; change (inject_Z 1) with (1 # 1)%Q; lra).
  rewrite <- Zlt_Qlt in A, B. lia.
Qed.
Lemma round_exact f : (0 <= f)%Q -> round_Z exact f = nearest f.
Proof. intros H. cbn [round_Z exact]. apply Qle_bool_iff in H. now rewrite H. Qed.
Lemma round_abs f : (0 <= f)%Q -> round_Z exact (abs exact_more f) = nearest f.
Proof.
  intros H. cbn [abs exact_more]. rewrite round_exact by apply Qabs_nonneg. unfold nearest. apply Qfloor_comp.
  rewrite Qabs_pos by assumption. reflexivity.
Qed.
Lemma nearest_comp f g : (f == g)%Q -> nearest f = nearest g.
Proof. intros E. unfold nearest. apply Qfloor_comp. now rewrite E. Qed.
Lemma nearest_nonneg f : (0 <= f)%Q -> 0 <= nearest f.
Proof.
  intros H. destruct (nearest_range f) as [_ H2]. assert (B : (inject_Z 0 < inject_Z (nearest f + 1))%Q).
  { rewrite inject_Z_plus. change (inject_Z 1) with (1 # 1)%Q. change (inject_Z 0) with 0%Q. lra. }
  rewrite <- Zlt_Qlt in B. lia.
Qed.
Lemma half_even_nearest f : ~ half_above_even f -> half_even (Qnum f) (Zpos (Qden f)) = nearest f.
Proof.
  intros N. destruct f as [n d]. cbn [Qnum Qden]. unfold half_even. set (D := Z.pos d).
  assert (PD : 0 < D) by (unfold D; lia).
  pose proof (Z.div_mod n D ltac:(lia)) as E. pose proof (Z.mod_pos_bound n D PD) as B.
  symmetry. destruct (Z.compare_spec (2 * (n mod D)) D) as [C|C|C].
  - destruct (Z.even (n / D)) eqn:V.
    + exfalso. apply N. apply Z.even_spec in V. destruct V as [z V]. exists z. rewrite <- V. unfold Qeq, Qplus, inject_Z. cbn [Qnum Qden]. rewrite ?Pos2Z.inj_mul. fold D. nia.
    + apply nearest_unique; unfold Qle, Qlt, Qminus, Qplus, Qopp, inject_Z; cbn [Qnum Qden]; rewrite ?Pos2Z.inj_mul; fold D; nia.
  - apply nearest_unique; unfold Qle, Qlt, Qminus, Qplus, Qopp, inject_Z; cbn [Qnum Qden]; rewrite ?Pos2Z.inj_mul; fold D; nia.
  - apply nearest_unique; unfold Qle, Qlt, Qminus, Qplus, Qopp, inject_Z; cbn [Qnum Qden]; rewrite ?Pos2Z.inj_mul; fold D; nia.
Qed.
Lemma remainder_exact f : ~ half_above_even f -> (remainder exact_more f == f - inject_Z (nearest f))%Q.
Proof. intros N. unfold remainder. cbn [nearby exact_more sub exact]. rewrite half_even_nearest by assumption. reflexivity. Qed.

(** ** Totals *)
Lemma in_i32_iff x : in_i32 x = true <-> - 2 ^ 31 <= x < 2 ^ 31.
Proof. unfold in_i32. lia. Qed.
Lemma zsum_nonneg l : Forall (fun x => 0 <= x) l -> 0 <= zsum l.
Proof. induction 1; cbn; unfold zsum in *; lia. Qed.
Lemma round_all_exact fs : forall (total : Q) near, Forall (fun f => 0 <= f)%Q fs -> 0 <= near -> near + zsum (map nearest fs) < 2 ^ 31 ->
  exists t, round_all exact_more fs total near = Ret (t, near + zsum (map nearest fs), map nearest fs) /\ (t == total + Qsum fs)%Q.
Proof.
  induction fs as [|f fs IH]; intros total near P N B.
  - cbn. exists total. split; [f_equal; f_equal; f_equal; lia|]. change (total == total + 0)%Q. ring.
  - inversion P as [|? ? Pf Pfs]; subst. cbn [map zsum fold_right] in B. change (fold_right Z.add 0 (map nearest fs)) with (zsum (map nearest fs)) in B.
    pose proof (nearest_nonneg f Pf). assert (0 <= zsum (map nearest fs)).
    { apply zsum_nonneg. rewrite Forall_map. eapply Forall_impl; [|exact Pfs]. intros. now apply nearest_nonneg. }
    cbn [round_all]. rewrite round_abs, round_exact by assumption.
    rewrite (proj2 (in_i32_iff (near + nearest f))), (proj2 (in_i32_iff (nearest f))) by lia. cbn [andb].
    destruct (IH (add exact total f) (near + nearest f) Pfs) as (t & E & T); [lia|lia|]. rewrite E. exists t. split.
    + cbn [map zsum fold_right]. change (fold_right Z.add 0 (map nearest fs)) with (zsum (map nearest fs)). f_equal. f_equal. f_equal. lia.
    + rewrite T. change (total + f + Qsum fs == total + (f + Qsum fs))%Q. ring.
Qed.

(** ** Adding one at several places *)
Lemma add_one_length i l : length (add_one i l) = length l.
Proof. revert i. induction l as [|x l IH]; intros [|i]; cbn; auto. Qed.
Lemma add_one_nth i l j : nth j (add_one i l) 0 = nth j l 0 + (if Nat.eqb i j && (j <? length l)%nat then 1 else 0).
Proof.
  revert i j. induction l as [|x l IH]; intros i j.
  - replace (add_one i []) with (@nil Z) by (destruct i; reflexivity). cbn. rewrite andb_false_r. destruct j; reflexivity.
  - destruct i, j; cbn; try lia. rewrite IH. reflexivity.
Qed.
Lemma add_one_sum i l : (i < length l)%nat -> zsum (add_one i l) = zsum l + 1.
Proof. revert i. induction l as [|x l IH]; intros [|i] L; cbn in *; unfold zsum in *; try lia. rewrite IH by lia. lia. Qed.
Lemma adds_length idx : forall l, length (fold_left (fun r i => add_one i r) idx l) = length l.
Proof. induction idx as [|i idx IH]; intros l; cbn; [reflexivity|]. rewrite IH. apply add_one_length. Qed.
Lemma adds_sum idx : forall l, Forall (fun i => (i < length l)%nat) idx -> zsum (fold_left (fun r i => add_one i r) idx l) = zsum l + Z.of_nat (length idx).
Proof.
  induction idx as [|i idx IH]; intros l F; cbn [fold_left length]; [lia|]. inversion F; subst. rewrite IH.
  - rewrite add_one_sum by assumption. lia.
  - rewrite add_one_length. assumption.
Qed.
Lemma adds_nth idx : forall l j, NoDup idx -> nth j (fold_left (fun r i => add_one i r) idx l) 0 =
  nth j l 0 + (if in_dec Nat.eq_dec j idx then if (j <? length l)%nat then 1 else 0 else 0).
Proof.
  induction idx as [|i idx IH]; intros l j ND; cbn [fold_left]; [cbn; lia|]. inversion ND as [|? ? N1 N2]; subst. rewrite IH, add_one_nth, add_one_length by assumption.
  destruct (Nat.eqb_spec i j) as [->|D].
  - destruct (in_dec Nat.eq_dec j idx); [contradiction|]. destruct (in_dec Nat.eq_dec j (j :: idx)) as [_|H]; [|elim H; now left].
    destruct (j <? length l)%nat; cbn; lia.
  - cbn [andb]. destruct (in_dec Nat.eq_dec j idx) as [I|I]; destruct (in_dec Nat.eq_dec j (i :: idx)) as [J|J]; try lia.
    + elim J. now right.
    + destruct J as [J|J]; [congruence|contradiction].
Qed.

(** ** Sums of remainders *)
Lemma Qsum_perm l l' : Permutation l l' -> (Qsum l == Qsum l')%Q.
Proof. induction 1; unfold Qsum in *; cbn [fold_right] in *; lra. Qed.
Lemma Qsum_app l l' : (Qsum (l ++ l') == Qsum l + Qsum l')%Q.
Proof. induction l as [|x l IH]; cbn [app]; unfold Qsum in *; cbn [fold_right]; lra. Qed.
Lemma Qsum_bound l b : Forall (fun x => x <= b)%Q l -> (Qsum l <= inject_Z (Z.of_nat (length l)) * b)%Q.
Proof.
  induction 1 as [|x l H F IH]; [change (0 <= 0 * b)%Q; lra|]. cbn [length]. rewrite Nat2Z.inj_succ. unfold Z.succ. rewrite inject_Z_plus. cbn [Qsum fold_right].
  change (fold_right Qplus 0%Q l) with (Qsum l). change (inject_Z 1) with (1 # 1)%Q. nra.
Qed.
Lemma Qsum_sub fs : (Qsum (map (fun f => f - inject_Z (nearest f)) fs) == Qsum fs - inject_Z (zsum (map nearest fs)))%Q.
Proof.
  induction fs as [|f fs IH]; [reflexivity|]. cbn [map Qsum fold_right zsum]. change (fold_right Z.add 0 (map nearest fs)) with (zsum (map nearest fs)).
  rewrite inject_Z_plus. change (fold_right Qplus 0%Q ?x) with (Qsum x) in *. unfold Qsum in *. lra.
Qed.
(** The excess fits among the positive remainders. *)
Lemma positive_first l : StronglySorted (fun x y => y <= x)%Q l -> Forall (fun x => x <= 1 # 2)%Q l ->
  forall k, (1 <= k)%nat -> (inject_Z (Z.of_nat k) - (1 # 2) <= Qsum l)%Q -> (k <= length l)%nat /\ Forall (fun x => 0 < x)%Q (firstn k l).
Proof.
  induction 1 as [|x l SS IH F]; intros B k K H.
  - exfalso. assert (X : (inject_Z 1 <= inject_Z (Z.of_nat k))%Q) by (rewrite <- Zle_Qle; lia). cbn in H. change (inject_Z 1) with (1 # 1)%Q in X. lra.
  - inversion B as [|? ? Bx Bl]; subst. cbn [Qsum fold_right] in H. change (fold_right Qplus 0%Q l) with (Qsum l) in H.
    destruct (Qlt_le_dec 0 x) as [P|P].
    + destruct k as [|[|k]]; [lia| |].
      * cbn. split; [lia|]. constructor; [exact P|constructor].
      * destruct (IH Bl (S k) ltac:(lia)) as [L G].
        { rewrite (Nat2Z.inj_succ (S k)) in H. unfold Z.succ in H. rewrite inject_Z_plus in H. change (inject_Z 1) with (1 # 1)%Q in H. lra. }
        split; [cbn; lia|]. change (firstn (S (S k)) (x :: l)) with (x :: firstn (S k) l). constructor; assumption.
    + exfalso. assert (Z0 : (Qsum l <= inject_Z (Z.of_nat (length l)) * 0)%Q).
      { apply Qsum_bound. eapply Forall_impl; [|exact F]. cbn. intros y Y. lra. }
      assert (X : (inject_Z 1 <= inject_Z (Z.of_nat k))%Q) by (rewrite <- Zle_Qle; lia). change (inject_Z 1) with (1 # 1)%Q in X. lra.
Qed.

(** ** Allocation *)
Lemma qnum_target t total : (t == total)%Q -> (0 <= total)%Q -> round_Z exact t = nearest total.
Proof. intros E H. rewrite round_exact by lra. now apply nearest_comp. Qed.
Lemma Qsum_nonneg l : Forall (fun x => 0 <= x)%Q l -> (0 <= Qsum l)%Q.
Proof. induction 1 as [|x l H F IH]; unfold Qsum in *; cbn [fold_right]; lra. Qed.
Lemma excess_fits fs : nearest (Qsum fs) - zsum (map nearest fs) <= Z.of_nat (length fs).
Proof.
  destruct (nearest_range (Qsum fs)) as [H _].
  assert (B : (Qsum (map (fun f => f - inject_Z (nearest f)) fs) <= inject_Z (Z.of_nat (length (map (fun f => f - inject_Z (nearest f)) fs))) * (1 # 2))%Q).
  { apply Qsum_bound. rewrite Forall_map. apply Forall_forall. intros f _. destruct (nearest_range f). lra. }
  rewrite Qsum_sub, map_length in B.
  set (n := Z.of_nat (length fs)) in *. assert (N0 : 0 <= n) by lia.
  assert (X : (inject_Z (2 * (nearest (Qsum fs) - zsum (map nearest fs))) <= inject_Z (n + 1))%Q).
  { rewrite inject_Z_mult, inject_Z_plus. unfold Z.sub. rewrite inject_Z_plus, inject_Z_opp. change (inject_Z 2) with (2 # 1)%Q. change (inject_Z 1) with (1 # 1)%Q. lra. }
  rewrite <- Zle_Qle in X. destruct (Z.eq_dec n 0); lia.
Qed.
Lemma allocate_exact fs sum order : Forall (fun f => 0 <= f)%Q fs -> zsum (map nearest fs) < 2 ^ 31 -> nearest (Qsum fs) < 2 ^ 31 -> length order = length fs -> Z.of_nat (length fs) < 2 ^ 63 ->
  allocate_fractions exact_more fs sum order =
  if nearest (Qsum fs) <? zsum (map nearest fs) then UB else
  Ret (fold_left (fun r i => add_one i r) (firstn (Z.to_nat (nearest (Qsum fs) - zsum (map nearest fs))) order) (map nearest fs)).
Proof.
  intros P B T L LB. unfold allocate_fractions. destruct (round_all_exact fs (of_Z exact 0) 0 P) as (t & E & Q0); [lia|lia|]. rewrite E.
  rewrite Z.add_0_l. pose proof (Qsum_nonneg fs P) as SN.
  assert (Q1 : (t == Qsum fs)%Q) by (transitivity (0 + Qsum fs)%Q; [exact Q0|ring]).
  rewrite (qnum_target t (Qsum fs) Q1 SN). pose proof (nearest_nonneg _ SN). pose proof (excess_fits fs) as X.
  assert (0 <= zsum (map nearest fs)).
  { apply zsum_nonneg. rewrite Forall_map. eapply Forall_impl; [|exact P]. intros. now apply nearest_nonneg. }
  rewrite (proj2 (in_i32_iff (nearest (Qsum fs)))) by lia. cbn [negb].
  destruct (Z.eqb_spec (zsum (map nearest fs)) (nearest (Qsum fs))) as [D|D].
  - rewrite D. rewrite Z.ltb_irrefl, Z.sub_diag. reflexivity.
  - rewrite (proj2 (in_i32_iff (nearest (Qsum fs) - zsum (map nearest fs)))) by lia. cbn [negb].
    destruct (Z.ltb_spec (nearest (Qsum fs)) (zsum (map nearest fs))) as [C|C].
    + replace (w64 (nearest (Qsum fs) - zsum (map nearest fs))) with (nearest (Qsum fs) - zsum (map nearest fs) + W64).
      2:{ unfold w64. apply (Z.mod_unique_pos _ _ (-1)); unfold W64; lia. }
      destruct (Z.leb_spec (nearest (Qsum fs) - zsum (map nearest fs) + W64) (Z.of_nat (length order))) as [Y|Y]; [|reflexivity].
      exfalso. unfold W64 in Y. lia.
    + replace (w64 (nearest (Qsum fs) - zsum (map nearest fs))) with (nearest (Qsum fs) - zsum (map nearest fs)) by (unfold w64; rewrite Z.mod_small; unfold W64; lia).
      rewrite L. destruct (Z.leb_spec (nearest (Qsum fs) - zsum (map nearest fs)) (Z.of_nat (length fs))); [reflexivity|lia].
Qed.
Lemma map_nth_seq {A} (d : A) l : map (fun i => nth i l d) (seq 0 (length l)) = l.
Proof.
  induction l as [|x l IH]; [reflexivity|]. cbn [length seq map nth]. f_equal. rewrite <- seq_shift, map_map. exact IH.
Qed.
Lemma StronglySorted_map {A B} (f : A -> B) (R : B -> B -> Prop) (Q : A -> A -> Prop) l :
  (forall x y, In x l -> In y l -> Q x y -> R (f x) (f y)) -> StronglySorted Q l -> StronglySorted R (map f l).
Proof.
  intros H S. induction S as [|x l S IH F]; cbn; constructor.
  - apply IH. intros; apply H; [now right|now right|assumption].
  - rewrite Forall_map. rewrite Forall_forall in *. intros y I. apply H; [now left|now right|auto].
Qed.
Lemma chosen_positive fs order : Forall (fun f => 0 <= f)%Q fs -> (forall f, In f fs -> ~ half_above_even f) -> sorted_by_remainder exact_more fs order ->
  let k := Z.to_nat (nearest (Qsum fs) - zsum (map nearest fs)) in
  Forall (fun i => 0 < nth i fs 0 - inject_Z (nearest (nth i fs 0)))%Q (firstn k order).
Proof.
  intros P N [SP SS] k. set (g := fun i => (nth i fs 0 - inject_Z (nearest (nth i fs 0)))%Q).
  assert (IN : forall i, In i order -> In (nth i fs 0%Q) fs).
  { intros i I. apply nth_In. apply (Permutation_in _ SP) in I. apply in_seq in I. change (@length (num exact) fs) with (@length Q fs) in I. lia. }
  assert (S1 : StronglySorted (fun x y => y <= x)%Q (map g order)).
  { eapply StronglySorted_map; [|exact SS]. intros i j I J H. cbn [gtb exact_more] in H. apply negb_false_iff, Qle_bool_iff in H.
    change (of_Z exact 0) with 0%Q in H. rewrite !remainder_exact in H by auto. exact H. }
  assert (B : Forall (fun x => x <= 1 # 2)%Q (map g order)).
  { rewrite Forall_map. apply Forall_forall. intros i _. unfold g. destruct (nearest_range (nth i fs 0%Q)). cbv beta. lra. }
  assert (T : (Qsum (map g order) == Qsum fs - inject_Z (zsum (map nearest fs)))%Q).
  { rewrite <- Qsum_sub. apply Qsum_perm. 
    replace (map (fun f => (f - inject_Z (nearest f))%Q) fs) with (map g (seq 0 (length fs))); [now apply Permutation_map|].
    transitivity (map (fun f => (f - inject_Z (nearest f))%Q) (map (fun i => nth i fs 0%Q) (seq 0 (length fs)))); [now rewrite map_map|].
    f_equal. apply map_nth_seq. }
  destruct (Nat.eq_dec k 0) as [E|E]; [rewrite E; constructor|].
  destruct (positive_first (map g order) S1 B k ltac:(lia)) as [_ F].
  - rewrite T. destruct (nearest_range (Qsum fs)) as [H _].
    unfold k. rewrite Z2Nat.id by lia. unfold Z.sub. rewrite inject_Z_plus, inject_Z_opp. lra.
  - rewrite firstn_map, Forall_map in F. exact F.
Qed.

(** ** Means *)
From Coq Require Import Reals Lra.
Local Open Scope R_scope.
Lemma logs_sum l : forall s, fold_left (fun s x => s + ln x) l s = s + fold_right (fun x t => ln x + t) 0 l.
Proof. induction l as [|x l IH]; intros s; cbn; [lra|]. rewrite IH. lra. Qed.
Lemma prod_pos l : Forall (fun x => 0 < x) l -> 0 < Rprod l.
Proof. induction 1; cbn; [lra|]. now apply Rmult_lt_0_compat. Qed.
Lemma logs_prod l : Forall (fun x => 0 < x) l -> fold_right (fun x t => ln x + t) 0 l = ln (Rprod l).
Proof.
  induction 1 as [|x l P F IH]; cbn; [symmetry; apply ln_1|]. rewrite IH. symmetry. apply ln_mult; [assumption|now apply prod_pos].
Qed.
Lemma exp_pow x n : exp x ^ n = exp (INR n * x).
Proof.
  induction n as [|n IH]; [cbn; now rewrite Rmult_0_l, exp_0|]. cbn [pow]. rewrite IH, <- exp_plus. f_equal. rewrite S_INR. lra.
Qed.
Lemma truncate_small (s : Z) (x : R) : (0 <= s)%Z -> 0 <= x < 1 -> truncate (IZR s + x) = s.
Proof.
  intros S X. unfold truncate. assert (0 <= IZR s) by now apply IZR_le. destruct (Rle_dec 0 (IZR s + x)) as [_|H1]; [|lra].
  destruct (base_Int_part (IZR s + x)) as [A B]. set (z := Int_part (IZR s + x)) in *.
  assert (IZR z < IZR (s + 1)) by (rewrite plus_IZR; lra). assert (IZR s < IZR (z + 1)) by (rewrite plus_IZR; lra).
  apply lt_IZR in H0, H1. lia.
Qed.
Lemma ln2_bounds : 0 <= ln 2 < 1.
Proof.
  split.
  - rewrite <- ln_1. destruct (Req_dec 1 2); [lra|]. left. apply ln_increasing; lra.
  - rewrite <- (ln_exp 1). apply ln_increasing; [lra|]. pose proof (exp_ineq1 1 ltac:(lra)). lra.
Qed.
Lemma growth_loop_spec x l : forall log n, 0 < x -> Forall (fun y => 0 < y) l ->
  growth_loop x l log n = exp ((log + ln (last l x) - ln x) / INR (n + length l)) - 1.
Proof.
  revert x. induction l as [|y l IH]; intros x log n X F.
  - cbn. rewrite Nat.add_0_r. f_equal. f_equal. f_equal. lra.
  - inversion F; subst. cbn [growth_loop]. rewrite IH by assumption. cbn [length]. rewrite Nat.add_succ_r. cbn [Nat.add].
    f_equal. f_equal. f_equal.
    replace (last (y :: l) x) with (last l y); [lra|]. clear. revert x y. induction l as [|z l IH]; intros x y; [reflexivity|].
    transitivity (last l z); [symmetry; apply (IH y z)|apply (IH x z)].
Qed.
