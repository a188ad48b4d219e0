(** Property theorems C170-C171: random draws. *)
From Coq Require Import QArith Qround Lqa.
From Verif Require Import Base Randomness Randomness_spec Randomness_proofs.
From Coq Require Import ZifyBool ZifyNat.
Local Open Scope Q_scope.

(** C170.  A latency is at least its shift, and is the shift and the random time without the fraction. *)
Theorem C170_shift shape rate shift unit d : 0 <= shift -> 0 <= rate -> 0 <= unit -> latency shape rate shift unit = Ret d ->
  (Qfloor shift <= d)%Z /\ inject_Z d <= shift + rate * unit /\ shift + rate * unit < inject_Z d + 1.
Proof.
  intros S R U H. apply latency_spec in H. destruct H as (_ & _ & ->). assert (M : 0 <= rate * unit) by now apply Qmult_le_0_compat.
  assert (F : (Qfloor shift <= Qfloor (shift + rate * unit))%Z) by (apply Qfloor_resp_le; lra).
  assert (Z : (0 <= Qfloor shift)%Z) by (change 0%Z with (Qfloor 0); now apply Qfloor_resp_le).
  rewrite Z.max_r by lia. split; [exact F|]. split; [apply Qfloor_le|]. pose proof (Qlt_floor (shift + rate * unit)) as L. rewrite inject_Z_plus in L. exact L.
Qed.
Print Assumptions C170_shift.
(** It is defined exactly when it fits. *)
Theorem C170_defined shape rate shift unit : (exists d, latency shape rate shift unit = Ret d) <-> -1 < shift + rate * unit /\ shift + rate * unit < inject_Z W64.
Proof.
  split; [intros (d & H); apply latency_spec in H; tauto|]. intros [A B]. eexists. apply latency_spec. split; [exact A|]. split; [exact B|reflexivity].
Qed.
Print Assumptions C170_defined.
(** The waiting time for tasks that come at a given rate gets shorter with a higher rate.  Here it gets longer: for all draws, *)
Theorem C170_rate_refuted shape rate rate' shift unit d d' : 0 <= unit -> rate <= rate' ->
  latency shape rate shift unit = Ret d -> latency shape rate' shift unit = Ret d' -> (d <= d')%Z.
Proof.
  intros U R H H'. apply latency_spec in H, H'. destruct H as (_ & _ & ->), H' as (_ & _ & ->). apply Z.max_le_compat_l, Qfloor_resp_le.
  assert (rate * unit <= rate' * unit) by (apply Qmult_le_compat_r; assumption). lra.
Qed.
Print Assumptions C170_rate_refuted.
(** in proportion to the rate: with [c] times the rate, the random part is [c] times as long, instead of as short.  With a rate of one it is right. *)
Theorem C170_scale shape rate c unit : latency shape (c * rate) 0 unit = latency shape rate 0 (c * unit).
Proof.
  unfold latency. cbn zeta. assert (E : 0 + c * rate * unit == 0 + rate * (c * unit)) by lra.
  destruct (Qlt_le_dec (-1) (0 + c * rate * unit)), (Qlt_le_dec (-1) (0 + rate * (c * unit))); try lra; try reflexivity.
  destruct (Qlt_le_dec (0 + c * rate * unit) (inject_Z W64)), (Qlt_le_dec (0 + rate * (c * unit)) (inject_Z W64)); try lra; try reflexivity. now rewrite E.
Qed.
Print Assumptions C170_scale.
Theorem C170_one shape shift unit : latency shape 1 shift unit = latency shape 1 (shift + unit / 1) 0.
Proof.
  unfold latency. cbn zeta. assert (E : shift + 1 * unit == shift + unit / 1 + 1 * 0) by field.
  destruct (Qlt_le_dec (-1) (shift + 1 * unit)), (Qlt_le_dec (-1) (shift + unit / 1 + 1 * 0)); try lra; try reflexivity.
  destruct (Qlt_le_dec (shift + 1 * unit) (inject_Z W64)), (Qlt_le_dec (shift + unit / 1 + 1 * 0) (inject_Z W64)); try lra; try reflexivity. now rewrite E.
Qed.
Print Assumptions C170_one.
Example C170_case : latency 2 10 5 3 = Ret 35%Z /\ latency 2 (1 # 10) 5 3 = Ret 5%Z /\ latency 2 1 (-3) 1 = UB.
Proof. repeat split. Qed.

(** C171.  A draw is a positive number of its type. *)
Theorem C171_range largest lambda e u : (1 <= largest)%Z -> 0 < lambda -> 0 < e < 1 -> (1 <= zero_truncated_poisson largest lambda e u <= largest)%Z.
Proof. intros B L [E1 E2]. destruct (poisson_spec largest lambda e u B L E1 E2) as (r & -> & R1 & R2 & _). lia. Qed.
Print Assumptions C171_range.
(** The probability of one is right. *)
Theorem C171_one largest lambda e u : (1 < largest)%Z -> 0 < lambda -> 0 < e < 1 -> (zero_truncated_poisson largest lambda e u = 1%Z <-> u <= mass lambda e 1).
Proof. intros B L [E1 E2]. now apply poisson_one. Qed.
Print Assumptions C171_one.
(** The result is [n] for the draws in an interval that has [n] times the length of the probability of [n]. *)
Theorem C171_exact largest lambda e u n : (1 <= largest)%Z -> 0 < lambda -> 0 < e < 1 -> (1 < n)%nat -> (Z.of_nat n < largest)%Z ->
  (zero_truncated_poisson largest lambda e u = Z.of_nat n <-> weighted lambda e (n - 1) < u <= weighted lambda e n) /\
  weighted lambda e n - weighted lambda e (n - 1) == inject_Z (Z.of_nat n) * mass lambda e n.
Proof.
  intros B L [E1 E2] N1 N2. split; [now apply poisson_iff|]. destruct n as [|n]; [lia|]. rewrite Nat.sub_succ, Nat.sub_0_r. unfold weighted. cbn [upto]. lra.
Qed.
Print Assumptions C171_exact.
(** So a draw for which three is right gives two, for every mean. *)
Theorem C171_refuted largest lambda e : (2 < largest)%Z -> 0 < lambda -> 0 < e < 1 -> at_most lambda e 2 < 1 ->
  exists u, 0 < u < 1 /\ inverse lambda e u 3 /\ zero_truncated_poisson largest lambda e u = 2%Z.
Proof.
  intros B L [E1 E2] A. pose proof (mass_pos lambda e 1 L E1 E2) as M1. pose proof (mass_pos lambda e 2 L E1 E2) as M2. pose proof (mass_pos lambda e 3 L E1 E2) as M3.
  assert (Ea : at_most lambda e 2 == mass lambda e 1 + mass lambda e 2) by (unfold at_most; cbn [upto]; lra).
  assert (E3 : at_most lambda e 3 == mass lambda e 1 + mass lambda e 2 + mass lambda e 3) by (unfold at_most; cbn [upto]; lra).
  assert (W1 : weighted lambda e 1 == mass lambda e 1) by (unfold weighted; cbn [upto]; change (inject_Z (Z.of_nat 1)) with 1; lra).
  assert (W2 : weighted lambda e 2 == mass lambda e 1 + 2 * mass lambda e 2) by (unfold weighted; cbn [upto]; change (inject_Z (Z.of_nat 1)) with 1; change (inject_Z (Z.of_nat 2)) with 2; lra).
  assert (D : forall x y z : Q, 0 < x -> 0 < y -> 0 < z -> exists d, 0 < d /\ d <= x /\ d <= y /\ d < z).
  { intros x y z X Y Z. destruct (Qlt_le_dec (z * (1 # 2)) x), (Qlt_le_dec (z * (1 # 2)) y), (Qlt_le_dec x y);
      first [exists (z * (1 # 2)); repeat split; lra|exists x; repeat split; lra|exists y; repeat split; lra]. }
  destruct (D (mass lambda e 2) (mass lambda e 3) (1 - at_most lambda e 2) M2 M3 ltac:(lra)) as (d & D1 & D2 & D3 & D4). exists (at_most lambda e 2 + d).
  split; [lra|]. split; [unfold inverse; cbn [Nat.sub]; lra|].
  apply (poisson_iff largest lambda e _ 2); [lia|assumption..|lia|lia|]. cbn [Nat.sub]. lra.
Qed.
Print Assumptions C171_refuted.
Example C171_case : (at_most 1 (368 # 1000) 2 < 1) /\ map (zero_truncated_poisson 127 1 (368 # 1000)) [1 # 2; 9 # 10; 95 # 100; 99 # 100] = [1; 2; 2; 2]%Z /\
  inverse 1 (368 # 1000) (9 # 10) 3 /\ map (zero_truncated_poisson 4 4 (18 # 1000)) [0; 1 # 2; 3 # 4; 99 # 100] = [1; 3; 3; 4]%Z.
Proof. repeat split; try reflexivity; vm_compute; congruence. Qed.
