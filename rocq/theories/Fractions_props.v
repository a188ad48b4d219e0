From Coq Require Import SpecFloat QArith Qround Qabs Lqa Reals Lra.
From Verif Require Import Base StaticTicks Fractions Fractions_spec Fractions_proofs.
From Coq Require Import ZifyBool ZifyNat.
Local Open Scope Z_scope.

(** * C127 *)
(** If the rounded numbers add up to no more than the rounded total, the result adds up to the rounded total. *)
Theorem C127_sum fs sum order : Forall (fun f => 0 <= f)%Q fs -> Z.of_nat (length fs) < 2 ^ 63 -> zsum (map nearest fs) < 2 ^ 31 -> nearest (Qsum fs) < 2 ^ 31 ->
  sorted_by_remainder exact_more fs order -> zsum (map nearest fs) <= nearest (Qsum fs) ->
  exists r, allocate_fractions exact_more fs sum order = Ret r /\ length r = length fs /\ zsum r = nearest (Qsum fs).
Proof.
  intros P L B T [SP SS] C. pose proof (Permutation_length SP) as LO. rewrite seq_length in LO. change (@length (num exact) fs) with (@length Q fs) in *.
  rewrite allocate_exact by assumption. destruct (Z.ltb_spec (nearest (Qsum fs)) (zsum (map nearest fs))); [lia|].
  pose proof (excess_fits fs). eexists. split; [reflexivity|]. split; [now rewrite adds_length, map_length|].
  rewrite adds_sum.
  - rewrite firstn_length, LO. lia.
  - apply Forall_forall. intros i I. rewrite map_length. assert (J : In i order) by (rewrite <- (firstn_skipn (Z.to_nat (nearest (Qsum fs) - zsum (map nearest fs))) order); apply in_or_app; now left).
    apply (Permutation_in _ SP) in J. apply in_seq in J. change (@length (num exact) fs) with (@length Q fs) in J. lia.
Qed.
Print Assumptions C127_sum.
(** And if no number is halfway between an even integer and the next, each is less than one away from its number. *)
Theorem C127_close fs sum order r : Forall (fun f => 0 <= f)%Q fs -> (forall f, In f fs -> ~ half_above_even f) ->
  Z.of_nat (length fs) < 2 ^ 63 -> zsum (map nearest fs) < 2 ^ 31 -> nearest (Qsum fs) < 2 ^ 31 ->
  sorted_by_remainder exact_more fs order -> allocate_fractions exact_more fs sum order = Ret r ->
  forall i, (i < length fs)%nat -> close (nth i r 0) (nth i fs 0%Q).
Proof.
  intros P N L B T SO E i I. pose proof SO as [SP _]. pose proof (Permutation_length SP) as LO. rewrite seq_length in LO. change (@length (num exact) fs) with (@length Q fs) in *.
  rewrite allocate_exact in E by assumption. destruct (Z.ltb_spec (nearest (Qsum fs)) (zsum (map nearest fs))); [discriminate|]. injection E as <-.
  pose proof (chosen_positive fs order P N SO) as C. cbv zeta in C. set (k := Z.to_nat (nearest (Qsum fs) - zsum (map nearest fs))) in *.
  assert (ND : NoDup (firstn k order)).
  { assert (ND : NoDup order) by (eapply Permutation_NoDup; [symmetry; exact SP|apply seq_NoDup]).
    rewrite <- (firstn_skipn k order) in ND. clear -ND. induction (firstn k order) as [|x l IH]; [constructor|].
    cbn in ND. inversion ND as [|? ? H1 H2]; subst. constructor; [intros X; apply H1, in_or_app; now left|auto]. }
  rewrite adds_nth by exact ND. rewrite map_length. destruct (Nat.ltb_spec i (length fs)); [|lia].
  rewrite (nth_indep (map nearest fs) 0 (nearest 0%Q)) by (rewrite map_length; lia). rewrite map_nth.
  destruct (nearest_range (nth i fs 0%Q)) as [R1 R2]. unfold close. apply Qabs_Qlt_condition.
  destruct (in_dec Nat.eq_dec i (firstn k order)) as [J|J].
  - rewrite Forall_forall in C. specialize (C i J). cbv beta in C. rewrite inject_Z_plus. change (inject_Z 1) with (1 # 1)%Q. split; Lqa.lra.
  - rewrite Z.add_0_r. split; Lqa.lra.
Qed.
Print Assumptions C127_close.
Definition fifths : list Q := [12 # 5; 17 # 5; 21 # 5; 3 # 2; 0]%Q.
Example C127_close_example : Forall (fun f => 0 <= f)%Q fifths /\ (forall f, In f fifths -> ~ half_above_even f) /\ sorted_by_remainder exact_more fifths [0; 1; 2; 4; 3]%nat /\
  allocate_fractions exact_more fifths 0 [0; 1; 2; 4; 3]%nat = Ret [3; 3; 4; 2; 0].
Proof.
  assert (H : forall f, In f fifths -> ~ half_above_even f).
  { intros f I [z E]. cbn in I. repeat (destruct I as [<-|I]; [unfold Qeq in E; cbn in E; lia|]). destruct I. }
  repeat split.
  - repeat constructor; unfold Qle; cbn; lia.
  - exact H.
  - change (Permutation ([0; 1; 2] ++ [4] ++ [3])%nat ([0; 1; 2] ++ [3] ++ [4])%nat). apply Permutation_app_head, Permutation_app_comm.
  - repeat constructor.
Qed.
(** If they add up to more, the behaviour is undefined. *)
Theorem C127_excess_refuted fs sum order : Forall (fun f => 0 <= f)%Q fs -> Z.of_nat (length fs) < 2 ^ 63 -> zsum (map nearest fs) < 2 ^ 31 -> nearest (Qsum fs) < 2 ^ 31 ->
  sorted_by_remainder exact_more fs order -> nearest (Qsum fs) < zsum (map nearest fs) -> allocate_fractions exact_more fs sum order = UB.
Proof.
  intros P L B T [SP SS] C. pose proof (Permutation_length SP) as LO. rewrite seq_length in LO. change (@length (num exact) fs) with (@length Q fs) in *.
  rewrite allocate_exact by assumption. destruct (Z.ltb_spec (nearest (Qsum fs)) (zsum (map nearest fs))); [reflexivity|lia].
Qed.
Print Assumptions C127_excess_refuted.
(** Doubles: one half, and the like. *)
Definition eighths (n : Z) : spec_float := div double (of_Z double n) (of_Z double 8).
(** Two halves. *)
Example C127_excess_example : allocate_fractions double_more [eighths 4; eighths 4] 1 [0; 1]%nat = UB /\ allocate_fractions exact_more [1 # 2; 1 # 2]%Q 1 [0; 1]%nat = UB.
Proof. vm_compute. auto. Qed.
(** A number halfway above an even integer may be raised twice: one half to two. *)
Theorem C127_half_refuted : exists fs order, sorted_by_remainder double_more fs order /\ fs = map eighths [4; 3; 3; 2] /\ allocate_fractions double_more fs 2 order = Ret [2; 0; 0; 0].
Proof.
  exists (map eighths [4; 3; 3; 2]), [0; 1; 2; 3]%nat. split; [|split; reflexivity]. split; [apply Permutation_refl|].
  repeat constructor.
Qed.
Print Assumptions C127_half_refuted.
(** Negative numbers count as positive in the result. *)
Theorem C127_negative_refuted : exists fs order, sorted_by_remainder double_more fs order /\ fs = map eighths [-8; 24] /\ allocate_fractions double_more fs 2 order = Ret [1; 3].
Proof. exists (map eighths [-8; 24]), [0; 1]%nat. split; [|split; reflexivity]. split; [apply Permutation_refl|]. repeat constructor. Qed.
Print Assumptions C127_negative_refuted.
(** The sum that is asked for has no influence. *)
Theorem C127_requested_refuted fs sum order r : allocate_fractions exact_more fs sum order = Ret r -> exists sum', zsum r <> sum' /\ allocate_fractions exact_more fs sum' order = Ret r.
Proof. intros H. exists (zsum r + 1). split; [lia|exact H]. Qed.
Print Assumptions C127_requested_refuted.

(** * C128 *)
Local Open Scope R_scope.
Theorem C128_root l : Forall (fun x => 0 < x) l -> l <> [] -> 0 < geometric_mean l /\ geometric_mean l ^ length l = Rprod l.
Proof.
  intros P N. unfold geometric_mean. split; [apply exp_pos|]. rewrite exp_pow, logs_sum, logs_prod by assumption.
  replace (INR (length l) * ((0 + ln (Rprod l)) / INR (length l))) with (ln (Rprod l)).
  - apply exp_ln. now apply prod_pos.
  - field. apply not_0_INR. destruct l; [contradiction|discriminate].
Qed.
Print Assumptions C128_root.
Example C128_example : geometric_mean [2; 8] = 4.
Proof.
  destruct (C128_root [2; 8]) as [P E]; [repeat constructor; lra|discriminate|]. cbn in E. revert E P. generalize (geometric_mean [2; 8]). intros x E P. nra.
Qed.
(** For integers the logarithms are truncated: any number of twos has the mean one. *)
Theorem C128_integers_refuted n : (0 < n)%nat -> geometric_mean_integers (repeat 2%Z n) = 1%Z.
Proof.
  intros N. unfold geometric_mean_integers. pose proof ln2_bounds as L.
  assert (H : forall m, fold_left (fun s x => truncate (IZR s + ln (IZR x))) (repeat 2%Z m) 0%Z = 0%Z).
  { induction m as [|m IH]; [reflexivity|]. cbn [repeat fold_left]. rewrite truncate_small by (assumption || lia). exact IH. }
  rewrite H, repeat_length, Z.div_0_l by lia. rewrite exp_0. replace 1 with (IZR 1 + 0) by lra. apply truncate_small; [lia|lra].
Qed.
Print Assumptions C128_integers_refuted.

(** * C129 *)
(** The growth rate is computed as if there were as many steps as points. *)
Theorem C129_steps x l g : 0 < x -> Forall (fun y => 0 < y) l -> growth_rate (x :: l) = Ret g -> 0 < 1 + g /\ x * (1 + g) ^ (length (x :: l)) = last l x.
Proof.
  intros X F E. unfold growth_rate in E. injection E as <-. rewrite growth_loop_spec by assumption. cbn [length Nat.add].
  set (n := S (length l)). replace (1 + (exp ((0 + ln (last l x) - ln x) / INR n) - 1)) with (exp ((0 + ln (last l x) - ln x) / INR n)) by lra.
  split; [apply exp_pos|]. rewrite exp_pow.
  replace (INR n * ((0 + ln (last l x) - ln x) / INR n)) with (ln (last l x) + - ln x) by (field; apply not_0_INR; discriminate).
  assert (P : 0 < last l x). { clear -X F. revert x X. induction F as [|y l P F IH]; intros x X; [exact X|]. destruct l as [|z l]; [exact P|]. apply (IH x X). }
  rewrite exp_plus, exp_Ropp, !exp_ln by assumption. field. lra.
Qed.
Print Assumptions C129_steps.
(** So a series that grows by a factor in every step has a lower growth rate. *)
Theorem C129_constant_refuted x f n g : 0 < x -> 1 < f -> growth_rate (map (fun k => x * f ^ k) (seq 0 (2 + n))) = Ret g -> g < f - 1.
Proof.
  intros X F E. cbn [Nat.add seq map] in E.
  assert (P : forall k, 0 < x * f ^ k) by (intros k; apply Rmult_lt_0_compat; [assumption|apply pow_lt; lra]).
  apply C129_steps in E; [|apply P|].
  2:{ apply Forall_forall. intros y I. destruct I as [<-|I]; [apply P|]. apply in_map_iff in I. destruct I as (k & <- & _). apply P. }
  destruct E as [G E]. cbn [length] in E. rewrite map_length, seq_length in E.
  assert (L : last (x * f ^ 1 :: map (fun k => x * f ^ k) (seq 2 n)) (x * f ^ 0) = x * f ^ (S n)).
  { destruct n as [|n]; [reflexivity|]. rewrite seq_S, map_app. cbn [map].
    change (x * f ^ 1 :: map (fun k => x * f ^ k) (seq 2 n) ++ [x * f ^ (2 + n)]) with ((x * f ^ 1 :: map (fun k => x * f ^ k) (seq 2 n)) ++ [x * f ^ (2 + n)]).
    rewrite last_last. reflexivity. }
  rewrite L in E. assert (E2 : (1 + g) ^ S (S n) = f ^ S n).
  { cbn [pow] in E. apply (Rmult_eq_reg_l x); [|lra]. cbn [pow]. lra. }
  destruct (Rlt_le_dec g (f - 1)) as [H|H]; [exact H|]. exfalso.
  assert (f ^ S (S n) <= (1 + g) ^ S (S n)) by (apply pow_incr; lra).
  assert (f ^ S n < f ^ S (S n)) by (apply Rlt_pow; [lra|lia]). lra.
Qed.
Print Assumptions C129_constant_refuted.
(** One to four in two steps is not a doubling but 4^(1/3) - 1; an exact value for one point. *)
Example C129_example : growth_rate [3] = Ret 0 /\ exists g, growth_rate [1; 2; 4] = Ret g /\ (1 + g) ^ 3 = 4.
Proof.
  split.
  - cbn. f_equal. unfold Rdiv. rewrite Rmult_0_l, exp_0. lra.
  - eexists. split; [reflexivity|]. match goal with |- (1 + ?g) ^ 3 = 4 => destruct (C129_steps 1 [2; 4] g) as [_ E] end; [lra|repeat constructor; lra|reflexivity|].
    cbn [length last] in E. lra.
Qed.
