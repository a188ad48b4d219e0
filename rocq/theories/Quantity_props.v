(** Property theorems C01-C04. *)
From Verif Require Import Base Quantity Quantity_spec Quantity_proofs.

(** C01: both splitting APIs return the same list; it has [n] parts, sums to [a], is
    non-increasing and its parts differ by at most one. *)
Theorem C01_split_conserves : forall a n, u64 a -> 1 <= n ->
  exists parts, q_split a n = Ret parts /\ q_divide a n = parts /\ fair_split a n parts.
Proof. exact split_fair. Qed.
Print Assumptions C01_split_conserves.
Example C01_case : q_split 11 4 = Ret [3;3;3;2] /\ u64 11 /\ q_split 9 4 = Ret [3;2;2;2].
Proof. vm_compute. repeat split; congruence. Qed.
(** Division by zero is undefined in the code, which is why [1 <= n] is required; nothing else is. *)
Theorem C01_undefined_exactly_for_zero : forall a n, u64 a -> u64 n -> (q_split a n = UB <-> n = 0) /\ q_split a n <> Throw.
Proof.
  intros a n Ha Hn. destruct (Z.eq_dec n 0) as [->|N].
  - split; [split; reflexivity|discriminate].
  - destruct (split_fair a n Ha) as (parts & E & _); [unfold u64 in Hn; lia|]. rewrite E. split; [|discriminate]. split; [discriminate|contradiction].
Qed.
Print Assumptions C01_undefined_exactly_for_zero.
Example C01_zero : q_split 11 0 = UB.
Proof. reflexivity. Qed.

(** C02: one subtraction. *)
Theorem C02_subtraction : forall a b, u64 a -> u64 b ->
  (a < b -> q_sub a b = Throw) /\
  (b <= a -> exists c, q_sub a b = Ret c /\ u64 c /\ c + b = a /\ q_add c b = a).
Proof. exact q_sub_spec. Qed.
Print Assumptions C02_subtraction.

(** C02: any sequence of deposits and withdrawals whose deposits cannot wrap follows the
    unbounded-integer ledger exactly (balance and refusals). *)
Theorem C02_ledger : forall os s, u64 s -> Forall (fun o => u64 (op_arg o)) os ->
  s + deposits os < W64 ->
  q_run s os = ledger s os /\ u64 (fst (q_run s os)).
Proof. exact q_run_ledger. Qed.
Print Assumptions C02_ledger.
Example C02_case : 
  let os := [Deposit 5; Withdraw 9; Withdraw 7; Deposit 1] in
  q_run 3 os = (2, [true; false; true; true]) /\ 3 + deposits os < W64 /\
  Forall (fun o => u64 (op_arg o)) os.
Proof. cbv zeta. split; [vm_compute; reflexivity|]. split; [reflexivity|].
  repeat constructor; vm_compute; congruence. Qed.

(** C03 *)
Theorem C03_add_exact_or_wraps : forall a b, u64 a -> u64 b ->
  (a + b < W64 -> q_add a b = a + b) /\ (W64 <= a + b -> q_add a b = a + b - W64).
Proof. exact q_add_exact. Qed.
Print Assumptions C03_add_exact_or_wraps.
Theorem C03_mul_exact_or_wraps : forall a b, u64 a -> u64 b ->
  u64 (q_mul a b) /\ (a * b < W64 -> q_mul a b = a * b) /\
  exists k, 0 <= k /\ q_mul a b + k * W64 = a * b /\ (k = 0 <-> a * b < W64).
Proof. exact q_mul_exact. Qed.
Print Assumptions C03_mul_exact_or_wraps.
Theorem C03_ring_laws : forall a b c,
  q_add a b = q_add b a /\ q_add (q_add a b) c = q_add a (q_add b c) /\
  q_mul a b = q_mul b a /\ q_mul (q_mul a b) c = q_mul a (q_mul b c) /\
  q_mul a (q_add b c) = q_add (q_mul a b) (q_mul a c).
Proof. exact (fun a b c => conj (q_add_comm a b) (conj (q_add_assoc a b c)
  (conj (q_mul_comm a b) (conj (q_mul_assoc a b c) (q_distr a b c))))). Qed.
Print Assumptions C03_ring_laws.
Example C03_case : q_add (2^64 - 1) 2 = 1 /\ q_mul (2^32) (2^32) = 0 /\ q_mul 6 7 = 42.
Proof. vm_compute. auto. Qed.

(** C04: the postfix form decrements; the prefix form never does (it increments). *)
Theorem C04_postfix_decrement : forall a, u64 a -> 0 < a -> q_postdecrement a = (a, a - 1).
Proof. exact q_postdec. Qed.
Print Assumptions C04_postfix_decrement.
Theorem C04_prefix_decrement_refuted : forall a, u64 a ->
  q_predecrement a <> w64 (a - 1) /\ (a < W64 - 1 -> q_predecrement a = a + 1).
Proof. exact q_predec_wrong. Qed.
Print Assumptions C04_prefix_decrement_refuted.
(** Both forms of ++ raise the quantity by one; the postfix form yields the value before. *)
Theorem C04_increments : forall a, u64 a -> a < 2 ^ 64 - 1 ->
  q_preincrement a = a + 1 /\ q_postincrement a = (a, a + 1).
Proof.
  intros a Ha Hl. unfold q_preincrement, q_postincrement.
  rewrite w64_id; [split; reflexivity|]. unfold u64, W64 in *. lia.
Qed.
Print Assumptions C04_increments.
Example C04_increments_case : q_preincrement 7 = 8 /\ q_postincrement 7 = (7, 8).
Proof. vm_compute. auto. Qed.
Example C04_case : q_postdecrement 7 = (7, 6) /\ q_predecrement 7 = 8.
Proof. vm_compute. auto. Qed.
