(** Lemmas on random draws. *)
From Coq Require Import QArith Qround Lqa.
From Verif Require Import Base Randomness Randomness_spec.
From Coq Require Import ZifyBool ZifyNat.
Local Open Scope Q_scope.

Lemma factorial_pos n : 0 < factorial n.
Proof. induction n as [|n IH]; cbn [factorial]; [lra|]. apply Qmult_lt_0_compat; [|exact IH]. change 0 with (inject_Z 0). rewrite <- Zlt_Qlt. lia. Qed.
Lemma power_pos x n : 0 < x -> 0 < power x n.
Proof. intros H. induction n as [|n IH]; cbn [power]; [lra|]. now apply Qmult_lt_0_compat. Qed.
Lemma nat_pos n : (0 < n)%nat -> 0 < inject_Z (Z.of_nat n).
Proof. intros H. change 0 with (inject_Z 0). rewrite <- Zlt_Qlt. lia. Qed.
Lemma mass_pos l e n : 0 < l -> 0 < e -> e < 1 -> 0 < mass l e n.
Proof.
  intros L E1 E2. unfold mass, Qdiv. pose proof (factorial_pos n). pose proof (power_pos l n L).
  repeat apply Qmult_lt_0_compat; try assumption; apply Qinv_lt_0_compat; [assumption|lra].
Qed.
(** One more term. *)
Definition term l e n : Q := inject_Z (Z.of_nat n) * mass l e n.
Lemma term_pos l e n : 0 < l -> 0 < e -> e < 1 -> (0 < n)%nat -> 0 < term l e n.
Proof. intros. unfold term. apply Qmult_lt_0_compat; [now apply nat_pos|now apply mass_pos]. Qed.
Lemma term_step l e n : ~ 1 - e == 0 -> (0 < n)%nat -> term l e n * (l / inject_Z (Z.of_nat n)) == term l e (S n).
Proof.
  intros E N. unfold term, mass. pose proof (factorial_pos n) as F. pose proof (nat_pos n N) as P.
  change (power l (S n)) with (l * power l n). change (factorial (S n)) with (inject_Z (Z.of_nat (S n)) * factorial n).
  assert (P' : 0 < inject_Z (Z.of_nat (S n))) by (apply nat_pos; lia). field. repeat split; lra.
Qed.
Lemma term_one l e : ~ 1 - e == 0 -> term l e 1 == e / (1 - e) * l.
Proof. intros E. unfold term, mass. cbn [power factorial]. field. exact E. Qed.

Lemma upto_le f a b : (forall n, (0 < n)%nat -> 0 < f n) -> (a <= b)%nat -> upto f a <= upto f b.
Proof.
  intros P H. induction H as [|b H IH]; [lra|]. cbn [upto]. specialize (P (S b) ltac:(lia)). lra.
Qed.
Lemma upto_lt f a b : (forall n, (0 < n)%nat -> 0 < f n) -> (a < b)%nat -> upto f a < upto f b.
Proof. intros P H. pose proof (upto_le f (S a) b P H) as L. cbn [upto] in L. specialize (P (S a) ltac:(lia)). lra. Qed.

Lemma draw_proper l u : forall n k t s t' s', t == t' -> s == s' -> draw l u n k t s = draw l u n k t' s'.
Proof.
  induction n as [|n IH]; intros k t s t' s' T S; cbn [draw]; destruct (Qlt_le_dec s u), (Qlt_le_dec s' u); try reflexivity; try lra.
  apply IH; [now rewrite T|]. now rewrite T, S.
Qed.
(** The loop from [k], with the sum so far. *)
Lemma draw_spec l e u : 0 < l -> 0 < e -> e < 1 -> forall n k, (0 < k)%nat ->
  exists r, draw l u n (Z.of_nat k) (term l e k) (weighted l e k) = Z.of_nat r /\ (k <= r <= k + n)%nat /\
    (forall j, (k <= j < r)%nat -> weighted l e j < u) /\ ((r < k + n)%nat -> u <= weighted l e r).
Proof.
  intros L E1 E2. induction n as [|n IH]; intros k K; cbn [draw]; destruct (Qlt_le_dec (weighted l e k) u) as [H|H].
  - exists k. split; [reflexivity|]. repeat split; try lia; intros; lia.
  - exists k. split; [reflexivity|]. repeat split; try lia; intros; lia.
  - assert (N : ~ 1 - e == 0) by lra. cbn zeta.
    rewrite (draw_proper l u n (Z.of_nat k + 1) _ _ (term l e (S k)) (weighted l e (S k))).
    + replace (Z.of_nat k + 1)%Z with (Z.of_nat (S k)) by lia. destruct (IH (S k) ltac:(lia)) as (r & D & B & W & U). exists r. split; [exact D|]. split; [lia|]. split.
      * intros j J. destruct (Nat.eq_dec j k) as [->|]; [exact H|]. apply W. lia.
      * intros R. apply U. lia.
    + now apply term_step.
    + unfold weighted at 2. cbn [upto]. fold (weighted l e). change (inject_Z (Z.of_nat (S k)) * mass l e (S k)) with (term l e (S k)). rewrite (term_step l e k N K).
      unfold weighted. reflexivity.
  - exists k. split; [reflexivity|]. split; [lia|]. split; [intros; lia|]. intros _. exact H.
Qed.
Lemma poisson_spec largest l e u : (1 <= largest)%Z -> 0 < l -> 0 < e -> e < 1 ->
  exists r, zero_truncated_poisson largest l e u = Z.of_nat r /\ (1 <= r)%nat /\ (Z.of_nat r <= largest)%Z /\
    (forall j, (1 <= j < r)%nat -> weighted l e j < u) /\ ((Z.of_nat r < largest)%Z -> u <= weighted l e r).
Proof.
  intros B L E1 E2. unfold zero_truncated_poisson. cbn zeta. assert (N : ~ 1 - e == 0) by lra.
  rewrite (draw_proper l u _ 1 _ _ (term l e 1) (weighted l e 1)); [| |].
  - destruct (draw_spec l e u L E1 E2 (Z.to_nat (largest - 1)) 1 ltac:(lia)) as (r & D & R & W & U). exists r. split; [exact D|]. split; [lia|]. split; [lia|]. split; [exact W|]. intros X. apply U. lia.
  - symmetry. now apply term_one.
  - unfold weighted. cbn [upto]. fold (term l e 1). rewrite (term_one l e N). lra.
Qed.
Lemma weighted_lt l e a b : 0 < l -> 0 < e -> e < 1 -> (a < b)%nat -> weighted l e a < weighted l e b.
Proof. intros. apply upto_lt; [|assumption]. intros n N. now apply (term_pos l e n). Qed.
Lemma weighted_le l e a b : 0 < l -> 0 < e -> e < 1 -> (a <= b)%nat -> weighted l e a <= weighted l e b.
Proof. intros. apply upto_le; [|assumption]. intros n N. now apply (term_pos l e n). Qed.
(** The result, before the largest number. *)
Lemma poisson_iff largest l e u n : (1 <= largest)%Z -> 0 < l -> 0 < e -> e < 1 -> (1 < n)%nat -> (Z.of_nat n < largest)%Z ->
  (zero_truncated_poisson largest l e u = Z.of_nat n <-> weighted l e (n - 1) < u <= weighted l e n).
Proof.
  intros B L E1 E2 N1 N2. destruct (poisson_spec largest l e u B L E1 E2) as (r & D & R1 & R2 & W & U). rewrite D. split.
  - intros H. apply Nat2Z.inj in H. subst r. split; [apply W; lia|apply U; lia].
  - intros [H1 H2]. f_equal. destruct (lt_eq_lt_dec r n) as [[C|C]|C]; [exfalso|exact C|exfalso].
    + specialize (U ltac:(lia)). pose proof (weighted_le l e r (n - 1) L E1 E2 ltac:(lia)). lra.
    + specialize (W n ltac:(lia)). lra.
Qed.
Lemma poisson_one largest l e u : (1 < largest)%Z -> 0 < l -> 0 < e -> e < 1 -> (zero_truncated_poisson largest l e u = 1%Z <-> u <= mass l e 1).
Proof.
  intros B L E1 E2. destruct (poisson_spec largest l e u ltac:(lia) L E1 E2) as (r & D & R1 & R2 & W & U). rewrite D.
  assert (M : weighted l e 1 == mass l e 1) by (unfold weighted; cbn [upto]; change (inject_Z (Z.of_nat 1)) with 1; lra). split.
  - intros H. assert (r = 1)%nat by lia. subst r. specialize (U ltac:(lia)). lra.
  - intros H. destruct (Nat.eq_dec r 1) as [->|C]; [reflexivity|]. exfalso. specialize (W 1%nat ltac:(lia)). lra.
Qed.

Lemma latency_spec shape rate shift unit d : latency shape rate shift unit = Ret d <->
  -1 < shift + rate * unit /\ shift + rate * unit < inject_Z W64 /\ d = Z.max 0 (Qfloor (shift + rate * unit)).
Proof.
  unfold latency. cbn zeta. destruct (Qlt_le_dec (-1) (shift + rate * unit)) as [A|A]; [destruct (Qlt_le_dec (shift + rate * unit) (inject_Z W64)) as [B|B]|].
  - split; [intros [= <-]; auto|]. now intros (_ & _ & ->).
  - split; [discriminate|]. intros (_ & H & _). lra.
  - split; [discriminate|]. intros (H & _). lra.
Qed.
