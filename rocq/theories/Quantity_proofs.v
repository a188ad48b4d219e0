From Verif Require Import Base Quantity Quantity_spec.
From Coq Require Import ZifyBool ZifyNat ZifyN.
Ltac Zify.zify_post_hook ::= Z.div_mod_to_equations.

Lemma zsum_app l1 l2 : zsum (l1 ++ l2) = zsum l1 + zsum l2.
Proof. induction l1 as [|x l IH]; cbn; [reflexivity|]. unfold zsum in *. lia. Qed.
Lemma zsum_repeat v n : zsum (repeat v n) = v * Z.of_nat n.
Proof. induction n as [|n IH]; cbn [repeat zsum fold_right]; [lia|].
  unfold zsum in IH. rewrite IH. lia. Qed.

Lemma fill_first_repeat k v w n : (k <= n)%nat ->
  fill_first k v (repeat w n) = repeat v k ++ repeat w (n - k).
Proof. revert n; induction k as [|k IH]; intros n H; destruct n as [|n]; cbn; try lia; try reflexivity.
  f_equal. apply IH. lia. Qed.
Lemma fill_from_O v w n : fill_from O v (repeat w n) = repeat v n.
Proof. induction n as [|n IH]; cbn; [reflexivity|]. f_equal; exact IH. Qed.
Lemma fill_from_repeat k v w n : (k <= n)%nat ->
  fill_from k v (repeat w n) = repeat w k ++ repeat v (n - k).
Proof. revert n; induction k as [|k IH]; intros n H.
  - cbn [app repeat]. rewrite Nat.sub_0_r. apply fill_from_O.
  - destruct n as [|n]; [lia|]. cbn. f_equal. apply IH. lia. Qed.

Lemma w64_id x : u64 x -> w64 x = x.
Proof. unfold u64, w64. intros; apply Z.mod_small; assumption. Qed.

Lemma q_split_divide a n : u64 a -> 1 <= n -> q_split a n = Ret (q_divide a n).
Proof.
  intros Ha Hn. unfold q_split, q_divide.
  destruct (Z.eqb_spec n 0) as [E|_]; [lia|].
  assert (Hr : 0 <= a mod n < n) by (apply Z.mod_pos_bound; lia).
  destruct (n >=? w64 (2 * (a mod n))).
  - rewrite fill_first_repeat by lia. reflexivity.
  - rewrite fill_from_repeat by lia. reflexivity.
Qed.

Lemma q_divide_small a n : u64 a -> 1 <= n ->
  q_divide a n = repeat (a / n + 1) (Z.to_nat (a mod n)) ++ repeat (a / n) (Z.to_nat (n - a mod n)).
Proof.
  intros Ha Hn. unfold q_divide.
  assert (Hr : 0 <= a mod n < n) by (apply Z.mod_pos_bound; lia).
  rewrite Z2Nat.inj_sub by lia.
  destruct (Z.eq_dec (a mod n) 0) as [E|E].
  - rewrite E. reflexivity.
  - rewrite w64_id; [reflexivity|].
    unfold u64 in *. assert (0 <= a / n) by (apply Z.div_pos; lia).
    assert (a = n * (a / n) + a mod n) by (apply Z.div_mod; lia).
    nia.
Qed.

Lemma q_divide_length a n : u64 a -> 1 <= n -> length (q_divide a n) = Z.to_nat n.
Proof. intros Ha Hn. assert (Hr : 0 <= a mod n < n) by (apply Z.mod_pos_bound; lia).
  rewrite q_divide_small by assumption. rewrite app_length, !repeat_length. lia. Qed.

Lemma q_divide_sum a n : u64 a -> 1 <= n -> zsum (q_divide a n) = a.
Proof. intros Ha Hn. assert (Hr : 0 <= a mod n < n) by (apply Z.mod_pos_bound; lia).
  rewrite q_divide_small, zsum_app, !zsum_repeat by assumption.
  rewrite !Z2Nat.id by lia. assert (a = n * (a / n) + a mod n) by (apply Z.div_mod; lia). nia. Qed.

Lemma nth_two_blocks (d v w : Z) k m i : (i < k + m)%nat ->
  nth i (repeat v k ++ repeat w m) d = if (i <? k)%nat then v else w.
Proof.
  intros H. destruct (Nat.ltb_spec i k) as [L|L].
  - rewrite app_nth1 by (rewrite repeat_length; lia).
    rewrite (nth_indep _ d v) by (rewrite repeat_length; lia). apply nth_repeat.
  - rewrite app_nth2 by (rewrite repeat_length; lia). rewrite repeat_length.
    rewrite (nth_indep _ d w) by (rewrite repeat_length; lia). apply nth_repeat.
Qed.

Lemma q_divide_fair a n i j : u64 a -> 1 <= n -> (i <= j < Z.to_nat n)%nat ->
  nth j (q_divide a n) 0 <= nth i (q_divide a n) 0 <= nth j (q_divide a n) 0 + 1.
Proof.
  intros Ha Hn Hij. assert (Hr : 0 <= a mod n < n) by (apply Z.mod_pos_bound; lia).
  rewrite q_divide_small by assumption.
  rewrite !nth_two_blocks by lia.
  destruct (Nat.ltb_spec i (Z.to_nat (a mod n))), (Nat.ltb_spec j (Z.to_nat (a mod n))); lia.
Qed.

Lemma q_divide_bounds a n x : u64 a -> 1 <= n -> In x (q_divide a n) -> 0 <= x <= a.
Proof.
  intros Ha Hn Hin. assert (Hr : 0 <= a mod n < n) by (apply Z.mod_pos_bound; lia).
  rewrite q_divide_small in Hin by assumption.
  assert (0 <= a / n) by (apply Z.div_pos; unfold u64 in *; lia).
  assert (a = n * (a / n) + a mod n) by (apply Z.div_mod; lia).
  apply in_app_or in Hin as [Hin|Hin].
  - assert (x = a / n + 1) by (apply repeat_spec in Hin; exact Hin).
    assert (a mod n <> 0) by (intro E; rewrite E in Hin; exact Hin). nia.
  - apply repeat_spec in Hin. subst x. nia.
Qed.

Lemma split_fair a n : u64 a -> 1 <= n ->
  exists parts, q_split a n = Ret parts /\ q_divide a n = parts /\ fair_split a n parts.
Proof.
  intros Ha Hn. exists (q_divide a n). split; [apply q_split_divide; assumption|].
  split; [reflexivity|]. split; [apply q_divide_length; assumption|].
  split; [apply q_divide_sum; assumption|].
  split; [intros x Hx; apply (q_divide_bounds a n); assumption|].
  intros i j Hij. apply q_divide_fair; assumption.
Qed.

(** C02 *)
Lemma q_sub_spec a b : u64 a -> u64 b ->
  (a < b -> q_sub a b = Throw) /\
  (b <= a -> exists c, q_sub a b = Ret c /\ u64 c /\ c + b = a /\ q_add c b = a).
Proof.
  intros Ha Hb. unfold q_sub. split; intros H.
  - destruct (Z.ltb_spec a b); [reflexivity|lia].
  - destruct (Z.ltb_spec a b); [lia|]. exists (a - b).
    assert (u64 (a - b)) by (unfold u64 in *; lia).
    rewrite w64_id by assumption. repeat split; try (unfold u64 in *; lia).
    unfold q_add. rewrite w64_id; [lia|]. unfold u64 in *; lia.
Qed.

Lemma deposits_nonneg os : Forall (fun o => u64 (op_arg o)) os -> 0 <= deposits os.
Proof. induction 1 as [|o os Ho Hos IH]; cbn; [lia|]. destruct o as [x|x]; cbn in *; unfold u64 in *; lia. Qed.

Lemma q_run_ledger os : forall s, u64 s -> Forall (fun o => u64 (op_arg o)) os ->
  s + deposits os < W64 ->
  q_run s os = ledger s os /\ u64 (fst (q_run s os)).
Proof.
  induction os as [|o os IH]; intros s Hs Hos Hb; cbn; [split; [reflexivity|exact Hs]|].
  inversion Hos as [|? ? Ho Hos']; subst.
  pose proof (deposits_nonneg os Hos') as Hd.
  destruct o as [x|x]; cbn in *.
  - unfold q_add. rewrite w64_id by (unfold u64 in *; lia).
    destruct (IH (s + x)) as [E U]; [unfold u64 in *; lia|assumption|lia|].
    rewrite E in *. destruct (ledger (s + x) os) as [r l]. cbn in *. auto.
  - unfold q_sub. destruct (Z.ltb_spec s x) as [L|L].
    + destruct (Z.leb_spec x s) as [L'|_]; [lia|].
      destruct (IH s) as [E U]; [assumption|assumption|lia|].
      rewrite E in *. destruct (ledger s os) as [r l]. cbn in *. auto.
    + destruct (Z.leb_spec x s) as [_|L']; [|lia].
      rewrite w64_id by (unfold u64 in *; lia).
      destruct (IH (s - x)) as [E U]; [unfold u64 in *; lia|assumption|unfold u64 in *; lia|].
      rewrite E in *. destruct (ledger (s - x) os) as [r l]. cbn in *. auto.
Qed.

(** C03 *)
Lemma q_add_exact a b : u64 a -> u64 b ->
  (a + b < W64 -> q_add a b = a + b) /\ (W64 <= a + b -> q_add a b = a + b - W64).
Proof.
  unfold u64, q_add, w64, W64. intros Ha Hb; split; intros H.
  - apply Z.mod_small; lia.
  - symmetry; apply (Z.mod_unique _ _ 1); lia.
Qed.
Lemma q_mul_exact a b : u64 a -> u64 b ->
  u64 (q_mul a b) /\ (a * b < W64 -> q_mul a b = a * b) /\
  exists k, 0 <= k /\ q_mul a b + k * W64 = a * b /\ (k = 0 <-> a * b < W64).
Proof.
  unfold u64, q_mul, w64. intros Ha Hb.
  assert (HW : 0 < W64) by reflexivity.
  assert (0 <= a * b) by nia.
  pose proof (Z.mod_pos_bound (a * b) W64 HW).
  pose proof (Z.div_mod (a * b) W64 ltac:(lia)).
  assert (0 <= a * b / W64) by (apply Z.div_pos; lia).
  split; [assumption|]. split; [intros; apply Z.mod_small; lia|].
  exists (a * b / W64). split; [assumption|]. split; [lia|]. nia.
Qed.
Lemma q_add_comm a b : q_add a b = q_add b a.
Proof. unfold q_add. f_equal; lia. Qed.
Lemma q_mul_comm a b : q_mul a b = q_mul b a.
Proof. unfold q_mul. f_equal; lia. Qed.
Lemma q_add_assoc a b c : q_add (q_add a b) c = q_add a (q_add b c).
Proof. unfold q_add, w64. rewrite Zplus_mod_idemp_l, Zplus_mod_idemp_r. f_equal; lia. Qed.
Lemma q_mul_assoc a b c : q_mul (q_mul a b) c = q_mul a (q_mul b c).
Proof. unfold q_mul, w64. rewrite Zmult_mod_idemp_l, Zmult_mod_idemp_r. f_equal; lia. Qed.
Lemma q_distr a b c : q_mul a (q_add b c) = q_add (q_mul a b) (q_mul a c).
Proof. unfold q_mul, q_add, w64. rewrite Zmult_mod_idemp_r, <- Zplus_mod. f_equal; lia. Qed.

(** C04 *)
Lemma q_postdec a : u64 a -> 0 < a -> q_postdecrement a = (a, a - 1).
Proof. intros Ha Hp. unfold q_postdecrement. rewrite w64_id; [reflexivity|unfold u64 in *; lia]. Qed.
Lemma q_predec_wrong a : u64 a -> q_predecrement a <> w64 (a - 1) /\
  (a < W64 - 1 -> q_predecrement a = a + 1).
Proof.
  intros Ha. unfold q_predecrement, u64, w64, W64 in *. split.
  - intros E. assert (D : (a + 1 - (a - 1)) mod 2 ^ 64 = 0).
    { rewrite Zminus_mod, E, Z.sub_diag. reflexivity. }
    replace (a + 1 - (a - 1)) with 2 in D by lia. discriminate D.
  - intros H. apply Z.mod_small. lia.
Qed.
